(** One Mutex object (POSIX) among threads that start and end: sync/sync_mutex.cpp 207-257.  Definitions
    only.

    Threads are numbered in the order they start; each has an identifier, pthread_self(), that no other
    living thread has, but which the system may give to another one after the thread ended.  A call is
    one step (C41_atomic shows that calls act like that), and MxCount does not wrap (C41_wraps). *)
From Verif Require Import Base S_Sync S_MutexEnd.
Open Scope N_scope.

(** The semaphore; MxOwnerID (None: 0); MxCount; the identifier of each thread, None if it ended. *)
Record ends := Ends { tavail : bool; towner : option nat; tcount : N; tlive : list (option nat) }.

Definition ends_init : ends := Ends true None 0 [].

Inductive tstep : ends -> t_event -> ends -> Prop :=
  (* Lock, 212-218 *)
  | t_again s i a : nth_error (tlive s) i = Some (Some a) -> towner s = Some a ->
      tstep s (TCall (MLocked i 0)) (Ends (tavail s) (towner s) (tcount s + 1) (tlive s))
  (* 222-229 *)
  | t_lock s i a : nth_error (tlive s) i = Some (Some a) -> towner s <> Some a -> tavail s = true ->
      tstep s (TCall (MLocked i 0)) (Ends false (Some a) 1 (tlive s))
  (* 222: not in time *)
  | t_notlocked s i a : nth_error (tlive s) i = Some (Some a) -> towner s <> Some a ->
      tstep s (TCall (MNotLocked i 0)) s
  (* Unlock, 237-242 *)
  | t_notunlocked s i a : nth_error (tlive s) i = Some (Some a) -> towner s <> Some a ->
      tstep s (TCall (MNotUnlocked i 0)) s
  (* 244-245 *)
  | t_down s i a : nth_error (tlive s) i = Some (Some a) -> towner s = Some a -> 1 < tcount s ->
      tstep s (TCall (MUnlocked i 0 false)) (Ends (tavail s) (towner s) (tcount s - 1) (tlive s))
  (* 244-252 *)
  | t_free s i a all : nth_error (tlive s) i = Some (Some a) -> towner s = Some a -> (all = true \/ tcount s = 1) ->
      tstep s (TCall (MUnlocked i 0 all)) (Ends true None 0 (tlive s))
  (* a thread ends, whatever it holds *)
  | t_end s i a : nth_error (tlive s) i = Some (Some a) ->
      tstep s (TEnd i) (Ends (tavail s) (towner s) (tcount s) (upd (tlive s) i None))
  (* a thread starts *)
  | t_start s a : (forall i, nth_error (tlive s) i <> Some (Some a)) ->
      tstep s (TStart a) (Ends (tavail s) (towner s) (tcount s) (tlive s ++ [Some a])).

Inductive trun : ends -> list t_event -> ends -> Prop :=
  | trun_nil s : trun s [] s
  | trun_step s tr s1 e s2 : trun s tr s1 -> tstep s1 e s2 -> trun s (tr ++ [e]) s2.
