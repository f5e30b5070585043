(** A mutex among threads that start and end: what happened, and who holds it. *)
From Verif Require Import Base S_Sync.
Open Scope N_scope.

(** Lock or Unlock returned in thread i (object 0); thread i ended; a thread with this identifier started. *)
Inductive t_event := TCall (e : mx_event) | TEnd (i : nat) | TStart (id : nat).

(** How often thread i has locked the mutex; nothing once it ended. *)
Definition tdepth1 (i : nat) (d : N) (e : t_event) : N :=
  match e with TCall e => mx_depth1 d i 0 e | TEnd j => if Nat.eqb i j then 0 else d | TStart _ => d end.
Definition tdepth (tr : list t_event) (i : nat) : N := fold_left (tdepth1 i) tr 0.
