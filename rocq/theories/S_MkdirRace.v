(** What other processes do while directories are being made. *)
From Verif Require Import Base S_Path S_Tree.

(** Nothing is removed or replaced, and at the places [P] only directories are new. *)
Definition growing (P : path -> Prop) (other : tree -> tree -> Prop) : Prop := forall t t', other t t' -> forall q,
  lookup t' q = lookup t q \/ (lookup t q = None /\ (P q -> lookup t' q = Some KDir)).

(** A process removes one empty directory. *)
Definition removing (t t' : tree) : Prop := exists s, t' = fst (rmdir t s).

Definition nobody (t t' : tree) : Prop := False.
