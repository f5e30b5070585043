(** A named Mutex (POSIX) in processes that fork: sync/sync_mutex.cpp 134-149 (destructor), 207-257.
    Definitions only.

    The semaphore lies in memory that the processes share; the rest of the object (MxOwnerID, MxCount)
    belongs to each process, and fork makes a copy of it.  Each process has one thread: the thread of
    a new process is a replica of the one that called fork, and pthread_self() gives the same for both,
    so that MxOwnerID == GetCurrentThreadID() has the same outcome.  A call is one step (C41_atomic
    shows that calls act like that), and MxCount does not wrap (C41_wraps). *)
From Verif Require Import Base S_Sync S_Fork.
Open Scope N_scope.

(** Whether the semaphore is free, and for each process MxCount (0: MxOwnerID is 0 as well); None: the
    process has no object any more. *)
Record forks := Forks { favail : bool; fprocs : list (option N) }.

Definition forks_init (n : nat) : forks := Forks true (repeat (Some 0) n).

Definition fput (s : forks) (i : nat) (c : option N) : list (option N) := upd (fprocs s) i c.

Inductive fstep : forks -> f_event -> forks -> Prop :=
  (* Lock, 212-218 *)
  | f_again s i c : nth_error (fprocs s) i = Some (Some c) -> c <> 0 ->
      fstep s (FCall (MLocked i i)) (Forks (favail s) (fput s i (Some (c + 1))))
  (* 222-229 *)
  | f_lock s i : nth_error (fprocs s) i = Some (Some 0) -> favail s = true ->
      fstep s (FCall (MLocked i i)) (Forks false (fput s i (Some 1)))
  (* 222: not in time *)
  | f_notlocked s i : nth_error (fprocs s) i = Some (Some 0) ->
      fstep s (FCall (MNotLocked i i)) s
  (* Unlock, 237-242 *)
  | f_notunlocked s i : nth_error (fprocs s) i = Some (Some 0) ->
      fstep s (FCall (MNotUnlocked i i)) s
  (* 244-245 *)
  | f_down s i c : nth_error (fprocs s) i = Some (Some c) -> 1 < c ->
      fstep s (FCall (MUnlocked i i false)) (Forks (favail s) (fput s i (Some (c - 1))))
  (* 244-252 *)
  | f_free s i c all : nth_error (fprocs s) i = Some (Some c) -> c <> 0 -> (all = true \/ c = 1) ->
      fstep s (FCall (MUnlocked i i all)) (Forks true (fput s i (Some 0)))
  (* fork() *)
  | f_fork s i c : nth_error (fprocs s) i = Some (Some c) ->
      fstep s (FFork i (length (fprocs s))) (Forks (favail s) (fprocs s ++ [Some c]))
  (* 134-149: Unlock(true), then the memory is unmapped *)
  | f_destroy s i c : nth_error (fprocs s) i = Some (Some c) ->
      fstep s (FGone i) (Forks (if c =? 0 then favail s else true) (fput s i None))
  (* the process ends without that, or becomes another program *)
  | f_exit s i c : nth_error (fprocs s) i = Some (Some c) ->
      fstep s (FGone i) (Forks (favail s) (fput s i None)).

Inductive frun : forks -> list f_event -> forks -> Prop :=
  | frun_nil s : frun s [] s
  | frun_step s tr s1 e s2 : frun s tr s1 -> fstep s1 e s2 -> frun s (tr ++ [e]) s2.
