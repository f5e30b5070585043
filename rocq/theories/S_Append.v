(** Specification of a file opened for appending.  Nothing here refers to the model. *)
From Verif Require Import Base S_File.
Open Scope N_scope.

(** An operation of the object, or somebody else appends to the same file. *)
Inductive aop := Mine (o : fop) | Theirs (x : bytes).

(** The bytes that an operation with the given answer adds to the end of the file. *)
Definition added (o : aop) (r : fans) : bytes :=
  match o, r with
  | Mine (FWrite x), AWrote _ n => firstn (N.to_nat n) x
  | Theirs x, _ => x
  | _, _ => []
  end.
Fixpoint all_added (l : list aop) (r : list fans) : bytes :=
  match l, r with
  | o :: l1, a :: r1 => added o a ++ all_added l1 r1
  | _, _ => []
  end.

Definition grows (old new : bytes) : Prop := exists x, new = old ++ x.

(** Only reads and writes of the object itself. *)
Definition plain (o : aop) : Prop := match o with Mine (FSeek _ _) | Theirs _ => False | _ => True end.
Definition op_size (o : aop) : nat := match o with Mine (FWrite x) => length x | Theirs x => length x | _ => O end.
Fixpoint total (l : list aop) : nat := match l with [] => O | o :: r => (op_size o + total r)%nat end.
