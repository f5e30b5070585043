(** What other processes do while a directory is being removed. *)
From Verif Require Import Base S_Path S_Tree.

Definition names_ok (t : tree) : Prop := forall p k, In (p, k) t -> p <> [] /\ Forall fname p.

(** They make no link at a place above, at or under [p]; anything else they may do. *)
Definition calm (p : path) (other : tree -> tree -> Prop) : Prop := forall t t', other t t' -> names_ok t ->
  names_ok t' /\ forall q g, under q p \/ under p q -> lookup t' q = Some (KLink g) -> exists g', lookup t q = Some (KLink g').

(** They do anything, but only inside of the directory [p]. *)
Definition inside (p : path) (t t' : tree) : Prop :=
  names_ok t' /\ forall q, (forall c r, q <> p ++ c :: r) -> lookup t' q = lookup t q.
