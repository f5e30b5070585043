(** Model of sync/sync_util.cpp: InitUnixNamedMem 120-301 (the part after the name is made),
    UnixNamedMemReady 303-306 and UnmapUnixNamedMem 308-325, as used by the Create functions and
    destructors of Mutex, Semaphore, Event, ReadWriteLock and SharedMem.  Definitions only.

    Several processes open and close one name, whose object has one size.  The object is never
    removed (nothing calls shm_unlink).  Memory is sequentially consistent.  mmap succeeds, and
    processes do not die. *)
From Verif Require Import Base S_Named.
Open Scope N_scope.

Inductive npc :=
  | NIdle
  | NNew                    (* 215: shm_open with O_EXCL succeeded *)
  | NMake                   (* 236: mutex initialised and locked *)
  | NMake2                  (* 238: status set *)
  | NInit (fresh : bool)    (* 300: returned 0; the caller initialises the contents *)
  | NReady (fresh : bool)   (* 305: the caller calls UnixNamedMemReady *)
  | NSpin                   (* 262: opened and mapped; waits for the status *)
  | NLock                   (* 277 *)
  | NLocked                 (* 279 *)
  | NUnlock (first : bool)  (* 290: counted; about to unlock; first: Result is 0 *)
  | NOpen                   (* Create has returned true *)
  | NClose                  (* 319 *)
  | NClosing.               (* 319 *)

(** Whether the object exists, its first byte, its mutex, its reference count, whether its contents
    are initialised. *)
Record named := Named { made : bool; status : bool; nmtx : option nat; ref : N; contents : bool; procs : list npc }.

Definition named_init (n : nat) : named := Named false false None 0 false (repeat NIdle n).

Definition nput (s : named) (i : nat) (p : npc) : list npc := upd (procs s) i p.

Inductive nstep : named -> option nm_event -> named -> Prop :=
  (* 215: O_CREAT | O_EXCL; new memory is zero *)
  | n_create s i : nth_error (procs s) i = Some NIdle -> made s = false ->
      nstep s None (Named true false None 0 false (nput s i NNew))
  (* 235-236 *)
  | n_make s i : nth_error (procs s) i = Some NNew ->
      nstep s None (Named (made s) (status s) (Some i) (ref s) (contents s) (nput s i NMake))
  (* 238 *)
  | n_status s i : nth_error (procs s) i = Some NMake ->
      nstep s None (Named (made s) true (nmtx s) (ref s) (contents s) (nput s i NMake2))
  (* 239-241 *)
  | n_ref s i : nth_error (procs s) i = Some NMake2 ->
      nstep s None (Named (made s) (status s) (nmtx s) 1 (contents s) (nput s i (NInit true)))
  (* InitUnixSemaphore etc. *)
  | n_init s i f : nth_error (procs s) i = Some (NInit f) ->
      nstep s (Some (NInited i)) (Named (made s) (status s) (nmtx s) (ref s) true (nput s i (NReady f)))
  (* 305: unlocking the mutex that this process has locked *)
  | n_ready s i f : nth_error (procs s) i = Some (NReady f) -> nmtx s = Some i ->
      nstep s (Some (NReturned i)) (Named (made s) (status s) None (ref s) (contents s) (nput s i NOpen))
  (* 305: unlocking a mutex that this process has not locked *)
  | n_ready_ub s i f : nth_error (procs s) i = Some (NReady f) -> nmtx s <> Some i ->
      nstep s (Some (NUndefined i)) s
  (* 249 *)
  | n_open s i : nth_error (procs s) i = Some NIdle -> made s = true ->
      nstep s None (Named (made s) (status s) (nmtx s) (ref s) (contents s) (nput s i NSpin))
  (* 262-268 *)
  | n_seen s i : nth_error (procs s) i = Some NSpin -> status s = true ->
      nstep s None (Named (made s) (status s) (nmtx s) (ref s) (contents s) (nput s i NLock))
  (* 277 *)
  | n_lock s i : nth_error (procs s) i = Some NLock -> nmtx s = None ->
      nstep s None (Named (made s) (status s) (Some i) (ref s) (contents s) (nput s i NLocked))
  (* 279, 288 *)
  | n_more s i : nth_error (procs s) i = Some NLocked -> ref s <> 0 ->
      nstep s None (Named (made s) (status s) (nmtx s) ((ref s + 1) mod W32) (contents s) (nput s i (NUnlock false)))
  (* 280-288 *)
  | n_first s i : nth_error (procs s) i = Some NLocked -> ref s = 0 ->
      nstep s None (Named (made s) (status s) (nmtx s) 1 false (nput s i (NUnlock true)))
  (* 290, result 1: Create returns *)
  | n_opened s i : nth_error (procs s) i = Some (NUnlock false) ->
      nstep s (Some (NReturned i)) (Named (made s) (status s) None (ref s) (contents s) (nput s i NOpen))
  (* 290, result 0 *)
  | n_again s i : nth_error (procs s) i = Some (NUnlock true) ->
      nstep s None (Named (made s) (status s) None (ref s) (contents s) (nput s i (NInit false)))
  | n_close s i : nth_error (procs s) i = Some NOpen ->
      nstep s (Some (NClosed i)) (Named (made s) (status s) (nmtx s) (ref s) (contents s) (nput s i NClose))
  (* 319 *)
  | n_clock s i : nth_error (procs s) i = Some NClose -> nmtx s = None ->
      nstep s None (Named (made s) (status s) (Some i) (ref s) (contents s) (nput s i NClosing))
  (* 320-321 *)
  | n_gone s i : nth_error (procs s) i = Some NClosing ->
      nstep s None (Named (made s) (status s) None (ref s - 1) (contents s) (nput s i NIdle)).

Inductive nrun : named -> list nm_event -> named -> Prop :=
  | nrun_nil s : nrun s [] s
  | nrun_step s tr s1 e s2 : nrun s tr s1 -> nstep s1 e s2 -> nrun s (tr ++ match e with Some x => [x] | None => [] end) s2.

(** 111-118 *)
Definition align_size (align size : N) : N := if size mod align =? 0 then size else size + (align - size mod align).
(** 124, 129-130: StartPos and the size of the object; [mutex] is sizeof(pthread_mutex_t) *)
Definition start_pos (align mutex : N) : N := align_size align 1 + align_size align mutex + align_size align 4.
Definition object_size (align mutex size : N) : N := align_size align (size + start_pos align mutex).
(** 283: memset(MemPtr, 0, Size) at StartPos: the end of what is written *)
Definition cleared_to (align mutex size : N) : N := start_pos align mutex + object_size align mutex size.
(** 257: mmap maps whole pages *)
Definition mapped_to (align mutex size page : N) : N := align_size page (object_size align mutex size).
