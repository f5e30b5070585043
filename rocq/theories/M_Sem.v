(** Model of sync/sync_util.cpp: InitUnixSemaphore 346-368, WaitForUnixSemaphore 370-439,
    ReleaseUnixSemaphore 441-455.  Definitions only.

    Any number of threads (of any processes) use one semaphore.  A thread is where its program
    counter says; a step is what it does between two places where others can interfere: the
    counter is touched only between locking and unlocking MxMutex, so the lines up to the unlock
    (or pthread_cond_wait) are one step.  pthread_mutex_lock blocks, and may fail; a failed
    trylock is the same as a failed lock.  pthread_cond_signal wakes at least one sleeper if there
    are any; sleepers may also wake by themselves, with an error, or (timed ones) by a timeout. *)
From Verif Require Import Base S_Sync.
Open Scope N_scope.

(** The argument Wait: 0, INFINITE or another number of milliseconds. *)
Inductive wait := WNo | WForever | WTimed.

Inductive pc :=
  | Idle
  | Enter (w : wait)              (* 372-380: about to lock *)
  | Inside (w : wait)             (* 382: has the lock *)
  | Asleep (w : wait)             (* 395, 424: in pthread_cond_wait or pthread_cond_timedwait *)
  | Woken (w : wait) (zero : bool)  (* the same, about to lock again; the result is zero *)
  | Back (w : wait) (zero : bool)   (* 396, 425: has the lock again *)
  | REnter                        (* 443: about to lock *)
  | RInside.                      (* 445: has the lock *)

Record sem := Sem { held : option nat; count : N; threads : list pc }.

Definition W32 : N := 4294967296.

(** 361-363 *)
Definition sem_init (start max : N) (n : nat) : sem := Sem None (N.min start max) (repeat Idle n).

(** 446-448 *)
Definition bump (c max : N) : N := let c1 := (c + 1) mod W32 in if max <? c1 then max else c1.

(** Some sleepers are woken, one at least if there are any. *)
Inductive woken1 : pc -> pc -> Prop :=
  | w_same p : woken1 p p
  | w_wake w : woken1 (Asleep w) (Woken w true).
Definition wakes (l l' : list pc) : Prop :=
  Forall2 woken1 l l' /\ ((exists w, In (Asleep w) l) -> exists i w, nth_error l i = Some (Asleep w) /\ nth_error l' i = Some (Woken w true)).

Section Sem.
(** MxMax[0]; whether a timeout may use up a wakeup, as POSIX allows *)
Variable max : N.
Variable lossy : bool.
(** whether there are timed waits; whether reading the clock may fail *)
Variable timed clockfail : bool.

Definition put (s : sem) (i : nat) (p : pc) : list pc := upd (threads s) i p.

(** A step, with what it lets programs see. *)
Inductive step : sem -> option sem_event -> sem -> Prop :=
  | s_call s i w : nth_error (threads s) i = Some Idle -> (w = WTimed -> timed = true) ->
      step s None (Sem (held s) (count s) (put s i (Enter w)))
  | s_refused s i w : nth_error (threads s) i = Some (Enter w) ->
      step s (Some (SFailed i)) (Sem (held s) (count s) (put s i Idle))
  | s_lock s i w : nth_error (threads s) i = Some (Enter w) -> held s = None ->
      step s None (Sem (Some i) (count s) (put s i (Inside w)))
  (* 384-389, 436-438 *)
  | s_take s i w : nth_error (threads s) i = Some (Inside w) -> count s <> 0 ->
      step s (Some (SGot i)) (Sem None (count s - 1) (put s i Idle))
  (* 395, 424: the lock is released while asleep *)
  | s_sleep s i w : nth_error (threads s) i = Some (Inside w) -> count s = 0 -> w <> WNo ->
      step s None (Sem None (count s) (put s i (Asleep w)))
  (* 407-410 *)
  | s_none s i : nth_error (threads s) i = Some (Inside WNo) -> count s = 0 ->
      step s (Some (SFailed i)) (Sem None (count s) (put s i Idle))
  (* 414: the lock is kept *)
  | s_clock s i : nth_error (threads s) i = Some (Inside WTimed) -> count s = 0 -> clockfail = true ->
      step s (Some (SFailed i)) (Sem (held s) (count s) (put s i Idle))
  | s_spurious s i w : nth_error (threads s) i = Some (Asleep w) ->
      step s None (Sem (held s) (count s) (put s i (Woken w true)))
  (* a timeout if [w] is WTimed, or an error *)
  | s_timeout s i w : nth_error (threads s) i = Some (Asleep w) ->
      step s None (Sem (held s) (count s) (put s i (Woken w false)))
  | s_lost s i : nth_error (threads s) i = Some (Woken WTimed true) -> lossy = true ->
      step s None (Sem (held s) (count s) (put s i (Woken WTimed false)))
  | s_relock s i w z : nth_error (threads s) i = Some (Woken w z) -> held s = None ->
      step s None (Sem (Some i) (count s) (put s i (Back w z)))
  (* 397, 426 *)
  | s_again s i w : nth_error (threads s) i = Some (Back w true) -> count s = 0 ->
      step s None (Sem None (count s) (put s i (Asleep w)))
  (* 399-404, 428-433 *)
  | s_granted s i w : nth_error (threads s) i = Some (Back w true) -> count s <> 0 ->
      step s (Some (SGot i)) (Sem None (count s - 1) (put s i Idle))
  (* 396, 425: break *)
  | s_gaveup s i w : nth_error (threads s) i = Some (Back w false) ->
      step s (Some (SFailed i)) (Sem None (count s) (put s i Idle))
  | s_rcall s i : nth_error (threads s) i = Some Idle ->
      step s None (Sem (held s) (count s) (put s i REnter))
  (* 443: false is returned, nothing is released *)
  | s_rrefused s i : nth_error (threads s) i = Some REnter ->
      step s None (Sem (held s) (count s) (put s i Idle))
  | s_rlock s i : nth_error (threads s) i = Some REnter -> held s = None ->
      step s None (Sem (Some i) (count s) (put s i RInside))
  (* 445-454 *)
  | s_release s i l : nth_error (threads s) i = Some RInside -> wakes (threads s) l ->
      step s (Some (SReleased i (count s))) (Sem None (bump (count s) max) (upd l i Idle)).

(** Executions, with what programs see, in order. *)
Inductive run : sem -> list sem_event -> sem -> Prop :=
  | run_nil s : run s [] s
  | run_step s tr s1 e s2 : run s tr s1 -> step s1 e s2 -> run s (tr ++ match e with Some x => [x] | None => [] end) s2.
End Sem.
