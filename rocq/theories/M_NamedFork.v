(** Named objects (POSIX) in processes that fork: sync/sync_util.cpp 205-300 (Create), 308-324 (destructor).
    Definitions only.

    Calls are one step each (C46 has the interleavings).  The count of users lies in the shared memory;
    fork copies the mapping, but leaves that count as it is.  Each process has one object, and the count
    does not wrap. *)
From Verif Require Import Base S_NamedFork.
Open Scope N_scope.

(** RefCountPtr[0], and for each process whether it has the object open. *)
Record shm := Shm { srefs : N; sopen : list bool }.

(** The memory does not exist yet: as if it existed with count 0, its contents are new in both cases
    (212-241, 281-287). *)
Definition shm_init (n : nat) : shm := Shm 0 (repeat false n).

(** The run's events, the last one first. *)
Inductive srun (n : nat) : list nf_event -> shm -> Prop :=
  | s_nil : srun n [] (shm_init n)
  (* 239, 281-289 *)
  | s_made r s i : srun n r s -> nth_error (sopen s) i = Some false -> srefs s = 0 ->
      srun n (NfMade i :: r) (Shm 1 (upd (sopen s) i true))
  (* 279, 289 *)
  | s_found r s i : srun n r s -> nth_error (sopen s) i = Some false -> srefs s <> 0 ->
      srun n (NfFound i :: r) (Shm (srefs s + 1) (upd (sopen s) i true))
  (* 319-323 *)
  | s_closed r s i : srun n r s -> nth_error (sopen s) i = Some true ->
      srun n (NfClosed i :: r) (Shm (if srefs s =? 0 then 0 else srefs s - 1) (upd (sopen s) i false))
  (* fork() *)
  | s_fork r s i b : srun n r s -> nth_error (sopen s) i = Some b ->
      srun n (NfFork i (length (sopen s)) :: r) (Shm (srefs s) (sopen s ++ [b]))
  (* _exit(), exec() or a crash: the number may be taken by another process that has nothing open *)
  | s_ended r s i b : srun n r s -> nth_error (sopen s) i = Some b ->
      srun n (NfEnded i :: r) (Shm (srefs s) (upd (sopen s) i false)).
