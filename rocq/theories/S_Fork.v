(** A mutex shared by processes that fork: what happened, and who holds it. *)
From Verif Require Import Base S_Sync.
Open Scope N_scope.

(** A call of Lock or Unlock returned in a process (number of thread and object: that of the process);
    process i made process j; the object of process i is no more. *)
Inductive f_event := FCall (e : mx_event) | FFork (i j : nat) | FGone (i : nat).

(** How often process i has locked the mutex.  A new process has not locked it. *)
Definition fdepth1 (i : nat) (d : N) (e : f_event) : N :=
  match e with
  | FCall e => mx_depth1 d i i e
  | FFork _ j => if Nat.eqb i j then 0 else d
  | FGone j => if Nat.eqb i j then 0 else d
  end.
Definition fdepth (tr : list f_event) (i : nat) : N := fold_left (fdepth1 i) tr 0.

(** Only processes that do not hold the mutex make others. *)
Definition forks_free (tr : list f_event) : Prop := forall tr1 i j tr2, tr = tr1 ++ FFork i j :: tr2 -> fdepth tr1 i = 0.
