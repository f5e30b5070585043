(** Specification of Windows files with several names.  Nothing here refers to the model. *)
From Verif Require Import Base.
Open Scope N_scope.

(** Contents and attributes; bit 0 of the attributes: read-only. *)
Record wf := Wf { data : list N; att : N }.
Definition read_only (f : wf) : bool := N.testbit (att f) 0.
(** Names lead to files; several names may lead to one file (hard links). *)
Record vol := Vol { names : nat -> option nat; files : nat -> wf }.
(** What a name shows. *)
Definition shows (s : vol) (n : nat) : option wf := option_map (files s) (names s n).
(** [i] is not in use. *)
Definition unused (s : vol) (i : nat) : Prop := forall n, names s n <> Some i.
(** All names but [n] show what they showed; for names of the same file as [n] see [files]. *)
Definition elsewhere (s t : vol) (n : nat) : Prop := forall m, m <> n -> names s m <> names s n -> shows t m = shows s m.
