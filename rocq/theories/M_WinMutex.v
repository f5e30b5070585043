(** Model of sync/sync_mutex.cpp, Windows part: constructor 12-15, Lock 66-99, Unlock 101-126.
    Definitions only.

    Several Mutex objects share one Windows mutex (by name); an unnamed mutex is the case of one
    object.  A Windows mutex belongs to a thread, which may take it again; it is free when released as
    often.  If its owner ends, it is abandoned: the next wait takes it, but returns WAIT_ABANDONED.
    The parts between EnterCriticalSection and LeaveCriticalSection are one step each, as only one
    thread at a time is inside them for one object and nothing else touches what they use, except
    the Windows mutex, which a step takes or releases at most once.  A wait may fail at any time.
    Windows may give the number of a thread that ended to a new one.  Objects are created before and destroyed after the execution. *)
From Verif Require Import Base S_Sync M_Mutex.
Open Scope N_scope.

Inductive xpc :=
  | XIdle
  | XWait (o : nat)   (* 90: WaitForSingleObject *)
  | XOwn (o : nat)    (* 93: has the Windows mutex *)
  | XEnded.           (* the thread has ended *)

(** MxOwnerID (None: 0), MxCount *)
Record xobj := XObj { xowner : option nat; xcount : N }.
(** The Windows mutex: its owner and how often the owner took it; whether it is abandoned. *)
Record wmutex := WMutex { xos : option (nat * N); xab : bool; xobjs : list xobj; xthreads : list xpc }.

(** 12: MxOwnerID(0), MxCount(0); 53: CreateMutexA with bInitialOwner FALSE *)
Definition wmutex_init (nobj n : nat) : wmutex := WMutex None false (repeat (XObj None 0) nobj) (repeat XIdle n).

(** ReleaseMutex by its owner *)
Definition os_released (os : option (nat * N)) : option (nat * N) :=
  match os with Some (i, k) => if k =? 1 then None else Some (i, k - 1) | None => None end.

Section WinMutex.
(** whether threads may end *)
Variable ending : bool.

Definition xput (s : wmutex) (i : nat) (p : xpc) : list xpc := upd (xthreads s) i p.
Definition xset (s : wmutex) (o : nat) (x : xobj) : list xobj := upd (xobjs s) o x.

Inductive xstep : wmutex -> option mx_event -> wmutex -> Prop :=
  (* Lock, 68, 79-85 *)
  | x_again s i o x : nth_error (xthreads s) i = Some XIdle -> nth_error (xobjs s) o = Some x -> xowner x = Some i ->
      xstep s (Some (MLocked i o)) (WMutex (xos s) (xab s) (xset s o (XObj (xowner x) ((xcount x + 1) mod W32))) (xthreads s))
  (* 87 *)
  | x_call s i o x : nth_error (xthreads s) i = Some XIdle -> nth_error (xobjs s) o = Some x -> xowner x <> Some i ->
      xstep s None (WMutex (xos s) (xab s) (xobjs s) (xput s i (XWait o)))
  (* 90: WAIT_OBJECT_0 *)
  | x_wait s i o : nth_error (xthreads s) i = Some (XWait o) -> xos s = None -> xab s = false ->
      xstep s None (WMutex (Some (i, 1)) false (xobjs s) (xput s i (XOwn o)))
  | x_more s i o k : nth_error (xthreads s) i = Some (XWait o) -> xos s = Some (i, k) ->
      xstep s None (WMutex (Some (i, k + 1)) (xab s) (xobjs s) (xput s i (XOwn o)))
  (* 90-91: WAIT_TIMEOUT, WAIT_FAILED *)
  | x_nowait s i o : nth_error (xthreads s) i = Some (XWait o) ->
      xstep s (Some (MNotLocked i o)) (WMutex (xos s) (xab s) (xobjs s) (xput s i XIdle))
  (* 90: WAIT_ABANDONED; 91: return false *)
  | x_abandoned s i o : nth_error (xthreads s) i = Some (XWait o) -> xos s = None -> xab s = true ->
      xstep s (Some (MNotLocked i o)) (WMutex (Some (i, 1)) false (xobjs s) (xput s i XIdle))
  (* 93-98 *)
  | x_own s i o x : nth_error (xthreads s) i = Some (XOwn o) -> nth_error (xobjs s) o = Some x ->
      xstep s (Some (MLocked i o)) (WMutex (xos s) (xab s) (xset s o (XObj (Some i) 1)) (xput s i XIdle))
  (* Unlock, 106-111 *)
  | x_notmine s i o x : nth_error (xthreads s) i = Some XIdle -> nth_error (xobjs s) o = Some x -> xowner x <> Some i ->
      xstep s (Some (MNotUnlocked i o)) s
  (* 113-114 *)
  | x_down s i o all x : nth_error (xthreads s) i = Some XIdle -> nth_error (xobjs s) o = Some x -> xowner x = Some i -> after_unlock all (xcount x) <> 0 ->
      xstep s (Some (MUnlocked i o all)) (WMutex (xos s) (xab s) (xset s o (XObj (xowner x) (after_unlock all (xcount x)))) (xthreads s))
  (* 113-121 *)
  | x_free s i o all x : nth_error (xthreads s) i = Some XIdle -> nth_error (xobjs s) o = Some x -> xowner x = Some i -> after_unlock all (xcount x) = 0 ->
      xstep s (Some (MUnlocked i o all)) (WMutex (os_released (xos s)) (xab s) (xset s o (XObj None 0)) (xthreads s))
  (* the thread ends *)
  | x_end s i : nth_error (xthreads s) i = Some XIdle -> ending = true -> (forall k, xos s <> Some (i, k)) ->
      xstep s None (WMutex (xos s) (xab s) (xobjs s) (xput s i XEnded))
  | x_endab s i k : nth_error (xthreads s) i = Some XIdle -> ending = true -> xos s = Some (i, k) ->
      xstep s None (WMutex None true (xobjs s) (xput s i XEnded))
  (* a new thread gets the number of one that ended *)
  | x_start s i : nth_error (xthreads s) i = Some XEnded -> ending = true ->
      xstep s None (WMutex (xos s) (xab s) (xobjs s) (xput s i XIdle)).

Inductive xrun : wmutex -> list mx_event -> wmutex -> Prop :=
  | xrun_nil s : xrun s [] s
  | xrun_step s tr s1 e s2 : xrun s tr s1 -> xstep s1 e s2 -> xrun s (tr ++ match e with Some x => [x] | None => [] end) s2.
End WinMutex.
