(** Specification of the fixed-size vectors: variables holding sequences. *)
From Verif Require Import Base S_Seq.

Section Vec.
Variable T : Type.
Variable d : T.  (* what T's default constructor makes *)

Inductive vop :=
| VNew (x n : nat)            (* StaticVector<T> x(n); *)
| VCopy (x y : nat)           (* StaticVector<T> x(y); *)
| VAssign (x y : nat)         (* x = y; *)
| VWrite (x i : nat) (v : T)  (* x[i] = v; *)
| VDelete (x : nat).          (* the end of x's life *)

Definition store := nat -> option (list T).

Definition vstep (o : vop) (s : store) : option store :=
  match o with
  | VNew x n => match s x with None => Some (fupd s x (Some (repeat d n))) | Some _ => None end
  | VCopy x y => match s x, s y with None, Some l => Some (fupd s x (Some l)) | _, _ => None end
  | VAssign x y => match s x, s y with Some _, Some l => Some (fupd s x (Some l)) | _, _ => None end
  | VWrite x i v => match s x with
      | Some l => if i <? length l then Some (fupd s x (Some (firstn i l ++ v :: skipn (S i) l))) else None
      | None => None end
  | VDelete x => match s x with Some _ => Some (fupd s x None) | None => None end
  end.

Fixpoint vrun (h : list vop) (s : store) : option store :=
  match h with [] => Some s | o :: t => match vstep o s with Some s' => vrun t s' | None => None end end.

Definition vempty : store := fun _ => None.
End Vec.
Arguments VNew {T}. Arguments VCopy {T}. Arguments VAssign {T}. Arguments VWrite {T}. Arguments VDelete {T}.
