(** Model of sync/sync_util.cpp: InitUnixEvent 484-506, WaitForUnixEvent 508-595, FireUnixEvent
    597-610, ResetUnixEvent 613-623.  Definitions only.

    Threads, steps, locks and condition variables are as in M_Sem; the event's variables are
    touched only between locking and unlocking MxMutex, except for MxManual, which never changes. *)
From Verif Require Import Base S_Sync M_Sem.
Open Scope N_scope.

Inductive epc :=
  | EIdle
  | EEnter (w : wait)               (* 510-518: about to lock *)
  | EInside (w : wait)              (* 520: has the lock *)
  | EAsleep (w : wait)              (* 537, 577: in pthread_cond_wait or pthread_cond_timedwait *)
  | EWoken (w : wait) (zero : bool)   (* the same, about to lock again; the result is zero *)
  | EBack (w : wait) (zero : bool)    (* 538, 578: has the lock again *)
  | FEnter | FInside                (* 599, 601: Fire *)
  | TEnter | TInside.               (* 616, 618: Reset *)

Record event := Event { eheld : option nat; signaled : bool; waiting : N; ethreads : list epc }.

(** 499-501 *)
Definition event_init (sg : bool) (n : nat) : event := Event None sg 0 (repeat EIdle n).

Inductive ewoken1 : epc -> epc -> Prop :=
  | ew_same p : ewoken1 p p
  | ew_wake w : ewoken1 (EAsleep w) (EWoken w true).
(** pthread_cond_signal: one sleeper at least, if there are any *)
Definition ewakes (l l' : list epc) : Prop :=
  Forall2 ewoken1 l l' /\ ((exists w, In (EAsleep w) l) -> exists i w, nth_error l i = Some (EAsleep w) /\ nth_error l' i = Some (EWoken w true)).
(** pthread_cond_broadcast: all of them *)
Definition wake_all (l : list epc) : list epc := map (fun p => match p with EAsleep w => EWoken w true | _ => p end) l.

Section Event.
(** MxManual[0] *)
Variable manual : bool.
(** whether a wait that went to sleep may end by a timeout or an error *)
Variable giveup : bool.

Definition eput (s : event) (i : nat) (p : epc) : list epc := upd (ethreads s) i p.
Definition minus1 (n : N) : N := (n + W32 - 1) mod W32.

Inductive estep : event -> option ev_event -> event -> Prop :=
  | e_call s i w : nth_error (ethreads s) i = Some EIdle ->
      estep s None (Event (eheld s) (signaled s) (waiting s) (eput s i (EEnter w)))
  (* a lock or trylock fails *)
  | e_refused s i w : nth_error (ethreads s) i = Some (EEnter w) ->
      estep s (Some (EFailed i)) (Event (eheld s) (signaled s) (waiting s) (eput s i EIdle))
  | e_lock s i w : nth_error (ethreads s) i = Some (EEnter w) -> eheld s = None ->
      estep s None (Event (Some i) (signaled s) (waiting s) (eput s i (EInside w)))
  (* 523-529, 592-594 *)
  | e_take s i w : nth_error (ethreads s) i = Some (EInside w) -> signaled s = true -> (manual = true \/ waiting s = 0) ->
      estep s (Some (EGot i)) (Event None manual (waiting s) (eput s i EIdle))
  (* 530-537, 572-577 *)
  | e_sleep s i w : nth_error (ethreads s) i = Some (EInside w) -> ~ (signaled s = true /\ (manual = true \/ waiting s = 0)) -> w <> WNo ->
      estep s None (Event None (signaled s) ((waiting s + 1) mod W32) (eput s i (EAsleep w)))
  (* 551-554 *)
  | e_none s i : nth_error (ethreads s) i = Some (EInside WNo) -> ~ (signaled s = true /\ (manual = true \/ waiting s = 0)) ->
      estep s (Some (EFailed i)) (Event None (signaled s) (waiting s) (eput s i EIdle))
  (* 559-564 *)
  | e_clock s i : nth_error (ethreads s) i = Some (EInside WTimed) -> ~ (signaled s = true /\ (manual = true \/ waiting s = 0)) ->
      estep s (Some (EFailed i)) (Event None (signaled s) (waiting s) (eput s i EIdle))
  | e_spurious s i w : nth_error (ethreads s) i = Some (EAsleep w) ->
      estep s None (Event (eheld s) (signaled s) (waiting s) (eput s i (EWoken w true)))
  | e_timeout s i w : nth_error (ethreads s) i = Some (EAsleep w) -> giveup = true ->
      estep s None (Event (eheld s) (signaled s) (waiting s) (eput s i (EWoken w false)))
  | e_relock s i w z : nth_error (ethreads s) i = Some (EWoken w z) -> eheld s = None ->
      estep s None (Event (Some i) (signaled s) (waiting s) (eput s i (EBack w z)))
  (* 539, 579 *)
  | e_again s i w : nth_error (ethreads s) i = Some (EBack w true) -> signaled s = false ->
      estep s None (Event None (signaled s) (waiting s) (eput s i (EAsleep w)))
  (* 541-549, 581-589 *)
  | e_granted s i w : nth_error (ethreads s) i = Some (EBack w true) -> signaled s = true ->
      estep s (Some (EGot i)) (Event None manual (minus1 (waiting s)) (eput s i EIdle))
  (* 538, 578: break *)
  | e_gaveup s i w : nth_error (ethreads s) i = Some (EBack w false) ->
      estep s (Some (EFailed i)) (Event None (signaled s) (minus1 (waiting s)) (eput s i EIdle))
  | e_fcall s i : nth_error (ethreads s) i = Some EIdle ->
      estep s None (Event (eheld s) (signaled s) (waiting s) (eput s i FEnter))
  | e_frefused s i : nth_error (ethreads s) i = Some FEnter ->
      estep s None (Event (eheld s) (signaled s) (waiting s) (eput s i EIdle))
  | e_flock s i : nth_error (ethreads s) i = Some FEnter -> eheld s = None ->
      estep s None (Event (Some i) (signaled s) (waiting s) (eput s i FInside))
  (* 601-609 *)
  | e_fire_one s i l : nth_error (ethreads s) i = Some FInside -> manual = false -> ewakes (ethreads s) l ->
      estep s (Some (EFired i)) (Event None true (waiting s) (upd l i EIdle))
  | e_fire_all s i : nth_error (ethreads s) i = Some FInside -> manual = true ->
      estep s (Some (EFired i)) (Event None true (waiting s) (upd (wake_all (ethreads s)) i EIdle))
  (* 615: only manual events *)
  | e_tcall s i : nth_error (ethreads s) i = Some EIdle -> manual = true ->
      estep s None (Event (eheld s) (signaled s) (waiting s) (eput s i TEnter))
  | e_trefused s i : nth_error (ethreads s) i = Some TEnter ->
      estep s None (Event (eheld s) (signaled s) (waiting s) (eput s i EIdle))
  | e_tlock s i : nth_error (ethreads s) i = Some TEnter -> eheld s = None ->
      estep s None (Event (Some i) (signaled s) (waiting s) (eput s i TInside))
  (* 618-622 *)
  | e_reset s i : nth_error (ethreads s) i = Some TInside ->
      estep s (Some (EReset i)) (Event None false (waiting s) (eput s i EIdle)).

Inductive erun : event -> list ev_event -> event -> Prop :=
  | erun_nil s : erun s [] s
  | erun_step s tr s1 e s2 : erun s tr s1 -> estep s1 e s2 -> erun s (tr ++ match e with Some x => [x] | None => [] end) s2.
End Event.
