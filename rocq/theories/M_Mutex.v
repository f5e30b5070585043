(** Model of sync/sync_mutex.cpp: Mutex::Lock 207-230 and Mutex::Unlock 232-257.  Definitions only.

    Several Mutex objects, in one or several processes, share the semaphore of a named mutex; an
    unnamed mutex is the case of one object.  Each object has its own critical section, owner and
    count.  The semaphore is the atomic one: C42_atomic shows that its calls act like that, and a
    wait may fail at any time.  Threads are numbered and do not end, so pthread_self() tells them
    apart.  Objects are created before and destroyed after the execution. *)
From Verif Require Import Base S_Sync M_Sem.
Open Scope N_scope.

Inductive mpc :=
  | MIdle
  | LEnter (o : nat)                (* 209: about to lock the critical section *)
  | LInside (o : nat)               (* 212 *)
  | LWait (o : nat)                 (* 222: WaitForUnixSemaphore *)
  | LGot (o : nat)                  (* 224: has the semaphore *)
  | LInside2 (o : nat)              (* 225: has the critical section again *)
  | UEnter (o : nat) (all : bool)   (* 234 *)
  | UInside (o : nat) (all : bool)  (* 237 *)
  | URelease (o : nat).             (* 251: ReleaseUnixSemaphore *)

(** MxPthreadCritSection, MxOwnerID (None: 0), MxCount *)
Record mobj := MObj { crit : option nat; owner : option nat; mcount : N }.
(** The semaphore's count (1 or 0), the objects, the threads. *)
Record mutex := Mutex { avail : bool; objs : list mobj; mthreads : list mpc }.

(** 126-131 (constructor), 196: semaphore of one *)
Definition mutex_init (nobj n : nat) : mutex := Mutex true (repeat (MObj None None 0) nobj) (repeat MIdle n).

Section Mutex.
(** whether locking a critical section or releasing the semaphore may fail *)
Variable errors : bool.

Definition mput (s : mutex) (i : nat) (p : mpc) : list mpc := upd (mthreads s) i p.
Definition oput (s : mutex) (o : nat) (x : mobj) : list mobj := upd (objs s) o x.
(** 244-245: if (All)  MxCount = 1;  MxCount--; *)
Definition after_unlock (all : bool) (c : N) : N := ((if all then 1 else c) + W32 - 1) mod W32.

Inductive mstep : mutex -> option mx_event -> mutex -> Prop :=
  | m_call s i o x : nth_error (mthreads s) i = Some MIdle -> nth_error (objs s) o = Some x ->
      mstep s None (Mutex (avail s) (objs s) (mput s i (LEnter o)))
  (* 209 *)
  | m_refused s i o : nth_error (mthreads s) i = Some (LEnter o) -> errors = true ->
      mstep s (Some (MNotLocked i o)) (Mutex (avail s) (objs s) (mput s i MIdle))
  | m_lock s i o x : nth_error (mthreads s) i = Some (LEnter o) -> nth_error (objs s) o = Some x -> crit x = None ->
      mstep s None (Mutex (avail s) (oput s o (MObj (Some i) (owner x) (mcount x))) (mput s i (LInside o)))
  (* 212-218 *)
  | m_again s i o x : nth_error (mthreads s) i = Some (LInside o) -> nth_error (objs s) o = Some x -> owner x = Some i ->
      mstep s (Some (MLocked i o)) (Mutex (avail s) (oput s o (MObj None (owner x) ((mcount x + 1) mod W32))) (mput s i MIdle))
  (* 220 *)
  | m_other s i o x : nth_error (mthreads s) i = Some (LInside o) -> nth_error (objs s) o = Some x -> owner x <> Some i ->
      mstep s None (Mutex (avail s) (oput s o (MObj None (owner x) (mcount x))) (mput s i (LWait o)))
  (* 222 *)
  | m_wait s i o : nth_error (mthreads s) i = Some (LWait o) -> avail s = true ->
      mstep s None (Mutex false (objs s) (mput s i (LGot o)))
  | m_nowait s i o : nth_error (mthreads s) i = Some (LWait o) ->
      mstep s (Some (MNotLocked i o)) (Mutex (avail s) (objs s) (mput s i MIdle))
  (* 224 *)
  | m_lock2 s i o x : nth_error (mthreads s) i = Some (LGot o) -> nth_error (objs s) o = Some x -> crit x = None ->
      mstep s None (Mutex (avail s) (oput s o (MObj (Some i) (owner x) (mcount x))) (mput s i (LInside2 o)))
  (* 225-229 *)
  | m_own s i o x : nth_error (mthreads s) i = Some (LInside2 o) -> nth_error (objs s) o = Some x ->
      mstep s (Some (MLocked i o)) (Mutex (avail s) (oput s o (MObj None (Some i) 1)) (mput s i MIdle))
  | m_ucall s i o all x : nth_error (mthreads s) i = Some MIdle -> nth_error (objs s) o = Some x ->
      mstep s None (Mutex (avail s) (objs s) (mput s i (UEnter o all)))
  (* 234 *)
  | m_urefused s i o all : nth_error (mthreads s) i = Some (UEnter o all) -> errors = true ->
      mstep s (Some (MNotUnlocked i o)) (Mutex (avail s) (objs s) (mput s i MIdle))
  | m_ulock s i o all x : nth_error (mthreads s) i = Some (UEnter o all) -> nth_error (objs s) o = Some x -> crit x = None ->
      mstep s None (Mutex (avail s) (oput s o (MObj (Some i) (owner x) (mcount x))) (mput s i (UInside o all)))
  (* 237-242 *)
  | m_unot s i o all x : nth_error (mthreads s) i = Some (UInside o all) -> nth_error (objs s) o = Some x -> owner x <> Some i ->
      mstep s (Some (MNotUnlocked i o)) (Mutex (avail s) (oput s o (MObj None (owner x) (mcount x))) (mput s i MIdle))
  (* 244-245, 254-256 *)
  | m_dec s i o all x : nth_error (mthreads s) i = Some (UInside o all) -> nth_error (objs s) o = Some x -> owner x = Some i -> after_unlock all (mcount x) <> 0 ->
      mstep s (Some (MUnlocked i o all)) (Mutex (avail s) (oput s o (MObj None (owner x) (after_unlock all (mcount x)))) (mput s i MIdle))
  (* 246-248; the critical section stays locked *)
  | m_last s i o all x : nth_error (mthreads s) i = Some (UInside o all) -> nth_error (objs s) o = Some x -> owner x = Some i -> after_unlock all (mcount x) = 0 ->
      mstep s (Some (MUnlocked i o all)) (Mutex (avail s) (oput s o (MObj (crit x) None 0)) (mput s i (URelease o)))
  (* 251, 254; the result of ReleaseUnixSemaphore is ignored *)
  | m_release s i o x : nth_error (mthreads s) i = Some (URelease o) -> nth_error (objs s) o = Some x ->
      mstep s None (Mutex true (oput s o (MObj None (owner x) (mcount x))) (mput s i MIdle))
  | m_norelease s i o x : nth_error (mthreads s) i = Some (URelease o) -> nth_error (objs s) o = Some x -> errors = true ->
      mstep s None (Mutex (avail s) (oput s o (MObj None (owner x) (mcount x))) (mput s i MIdle)).

Inductive mrun : mutex -> list mx_event -> mutex -> Prop :=
  | mrun_nil s : mrun s [] s
  | mrun_step s tr s1 e s2 : mrun s tr s1 -> mstep s1 e s2 -> mrun s (tr ++ match e with Some x => [x] | None => [] end) s2.
End Mutex.
