(** Who may read a file on POSIX.  Nothing here refers to the model. *)
From Verif Require Import Base S_Attr.
Open Scope N_scope.

(** [bit]: 2 for reading, 1 for writing *)
Definition may (bit : N) (v : user) (a : attrs) : bool :=
  if euid v =? 0 then true
  else if euid v =? owner a then N.testbit (perms a) (6 + bit)
  else if member v (group a) then N.testbit (perms a) (3 + bit)
  else N.testbit (perms a) bit.
Notation may_read := (may 2).
Notation may_write := (may 1).

(** What others may do, the group may; what the group may do, the owner may. *)
Definition usual (p : N) : Prop := (N.testbit p 2 = true -> N.testbit p 5 = true) /\ (N.testbit p 5 = true -> N.testbit p 8 = true).

(** Somebody else than [u] can read [b], but not [a]. *)
Definition leak (u : user) (a b : attrs) : Prop := exists v, euid v <> euid u /\ may_read v b = true /\ may_read v a = false.
