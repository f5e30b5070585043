(** Specification of two-dimensional arrays: variables holding grids. *)
From Verif Require Import Base S_Seq.

Section Arr.
Variable T : Type.
Variable d : T.

Inductive aop :=
| ANew (x w h : nat)                 (* Static2DArray<T> x(w, h); *)
| ACopy (x y : nat)                  (* Static2DArray<T> x(y); *)
| AAssign (x y : nat)                (* x = y; *)
| AWrite (x row col : nat) (v : T)   (* x[row][col] = v; *)
| ADelete (x : nat).

(** A grid: width, height and the cells. *)
Record grid := Grid { gw : nat; gh : nat; cell : nat -> nat -> T }.
Definition grids := nat -> option grid.

Definition astep (o : aop) (s : grids) : option grids :=
  match o with
  | ANew x w h => match s x with
      | None => if (N.of_nat w * N.of_nat h <? 2 ^ 64)%N then Some (fupd s x (Some (Grid w h (fun _ _ => d)))) else None
      | Some _ => None end
  | ACopy x y => match s x, s y with None, Some g => Some (fupd s x (Some g)) | _, _ => None end
  | AAssign x y => match s x, s y with Some _, Some g => Some (fupd s x (Some g)) | _, _ => None end
  | AWrite x j i v => match s x with
      | Some g => if (j <? gh g) && (i <? gw g)
                  then Some (fupd s x (Some (Grid (gw g) (gh g) (fun b a => if (b =? j) && (a =? i) then v else cell g b a))))
                  else None
      | None => None end
  | ADelete x => match s x with Some _ => Some (fupd s x None) | None => None end
  end.

(** An assignment between arrays of different shape whose source is not empty. *)
Definition reshapes (o : aop) (s : grids) : bool :=
  match o with
  | AAssign x y => match s x, s y with
      | Some a, Some b => negb ((gw a =? gw b) && (gh a =? gh b)) && negb (gw b * gh b =? 0)
      | _, _ => false end
  | _ => false
  end.
(** A legal program; the result also tells whether it contains a reshaping assignment. *)
Fixpoint arun (p : list aop) (s : grids) : option (grids * bool) :=
  match p with
  | [] => Some (s, false)
  | o :: t => match astep o s with
      | Some s' => match arun t s' with Some (r, b) => Some (r, reshapes o s || b) | None => None end
      | None => None end
  end.
Definition aempty : grids := fun _ => None.
End Arr.
Arguments ANew {T}. Arguments ACopy {T}. Arguments AAssign {T}. Arguments AWrite {T}. Arguments ADelete {T}.
Arguments Grid {T}. Arguments gw {T}. Arguments gh {T}. Arguments cell {T}. Arguments reshapes {T}. Arguments aempty {T}.
