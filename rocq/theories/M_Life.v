(** Model of the life of the synchronisation objects: constructors, Create, the check with which
    every other call begins, and destructors (sync/sync_semaphore.cpp, sync/sync_event.cpp,
    sync/sync_readwritelock.cpp, sync/sync_sharedmem.cpp, sync/sync_mutex.cpp,
    sync/sync_util.cpp:120-324).  Definitions only.

    What the calls do to a semaphore, an event or a lock once they get through to it is in M_Sem,
    M_Event, M_RW, M_WinRW, M_WinMutex; here it is left out, except for the mutex on POSIX.
    Calls are taken one after the other. *)
From Verif Require Import Base.
Open Scope nat_scope.

(** ** What a process holds *)

(** blocks from new[], mappings of named memory, handles, views of mapped files *)
Inductive kind := Heap | Mapping | Handle | View.

Definition kind_eqb (a b : kind) : bool :=
  match a, b with
  | Heap, Heap | Mapping, Mapping | Handle, Handle | View, View => true
  | _, _ => false
  end.

(** everything live, newest first, each with its own number *)
Record world := World { live : list (nat * kind); next : nat }.

Definition new (w : world) (k : kind) : world * nat := (World ((next w, k) :: live w) (S (next w)), next w).

Fixpoint take_out (l : list (nat * kind)) (k : kind) (r : nat) : option (list (nat * kind)) :=
  match l with
  | [] => None
  | (r', k') :: t =>
      if (r' =? r) && kind_eqb k' k then Some t
      else match take_out t k r with None => None | Some t' => Some ((r', k') :: t') end
  end.

(** delete[], UnmapUnixNamedMem, CloseHandle, UnmapViewOfFile: of something live, of the right kind *)
Definition free (w : world) (k : kind) (r : nat) : res world :=
  match take_out (live w) k r with
  | Some l => Ok (World l (next w))
  | None => UB
  end.

Definition is_live (w : world) (k : kind) (r : nat) : bool :=
  match take_out (live w) k r with Some _ => true | None => false end.

(** [if (Member != NULL) release(Member)] *)
Definition free_opt (w : world) (k : kind) (m : option nat) : res world :=
  match m with None => Ok w | Some r => free w k r end.

(** the system call gives a new resource, or NULL *)
Definition new_opt (w : world) (k : kind) (ok : bool) : world * option nat :=
  if ok then let '(w1, r) := new w k in (w1, Some r) else (w, None).

Fixpoint run {S O : Type} (step : world -> S -> O -> res (world * S * bool)) (w : world) (s : S) (l : list O)
  : res (world * S * list bool) :=
  match l with
  | [] => Ok (w, s, [])
  | o :: r =>
      let* (w1, s1, b) := step w s o in
      let* (w2, s2, bs) := run step w1 s1 r in
      Ok (w2, s2, b :: bs)
  end.

(** ** Semaphore, Event and ReadWriteLock on POSIX *)

(** MxNamed, MxMem; the pointers into the memory (MxPthreadSemaphore, MxPthreadEvent, ...) are set
    together with MxMem *)
Record pobj := Pobj { p_named : bool; p_mem : option nat }.

(** sync_semaphore.cpp:62, sync_event.cpp:69, sync_readwritelock.cpp:187 *)
Definition p_new : pobj := Pobj false None.

Definition p_kind (named : bool) : kind := if named then Mapping else Heap.

(** sync_semaphore.cpp:66-78, sync_event.cpp:73-85, sync_readwritelock.cpp:191-205; the same text
    begins Create (82-91, 89-98, 209-220) *)
Definition p_destroy (w : world) (o : pobj) : res world := free_opt w (p_kind (p_named o)) (p_mem o).

(** sync_semaphore.cpp:80-112, sync_event.cpp:87-119, sync_readwritelock.cpp:207-256; InitUnixNamedMem
    (sync_util.cpp:120-301) always succeeds without a name (132-137); [ok] is whether shm_open and mmap
    succeed *)
Definition p_create (w : world) (o : pobj) (name ok : bool) : res (world * pobj * bool) :=
  let* w1 := p_destroy w o in
  if negb name || ok then
    let '(w2, r) := new w1 (p_kind name) in Ok (w2, Pobj name (Some r), true)
  else Ok (w1, Pobj name None, false).

Inductive p_op := PCreate (name ok : bool) | PUse.

(** every other call begins with [if (MxMem == NULL) return false]; then the memory is used.
    The answer here is whether the call gets that far. *)
Definition p_step (w : world) (o : pobj) (op : p_op) : res (world * pobj * bool) :=
  match op with
  | PCreate name ok => p_create w o name ok
  | PUse =>
      match p_mem o with
      | None => Ok (w, o, false)
      | Some r => if is_live w (p_kind (p_named o)) r then Ok (w, o, true) else UB
      end
  end.

(** ** Semaphore and Event on Windows: sync_semaphore.cpp:12-59, sync_event.cpp:12-66 *)

Inductive w_op := WCreate (ok : bool) | WUse.

Definition w_step (w : world) (h : option nat) (op : w_op) : res (world * option nat * bool) :=
  match op with
  | WCreate ok =>
      let* w1 := free_opt w Handle h in
      let '(w2, h2) := new_opt w1 Handle ok in
      Ok (w2, h2, ok)
  | WUse =>
      match h with
      | None => Ok (w, h, false)
      | Some r => if is_live w Handle r then Ok (w, h, true) else UB
      end
  end.

Definition w_destroy (w : world) (h : option nat) : res world := free_opt w Handle h.

(** ** ReadWriteLock on Windows: sync_readwritelock.cpp:17-183 *)

(** MxWinRSemMutex, MxWinRSemaphore, MxWinRWaitEvent, MxWinWWaitMutex *)
Record rwobj := RW { r_mutex : option nat; r_sem : option nat; r_event : option nat; r_wmutex : option nat }.

Definition rw_new : rwobj := RW None None None None.

(** 21-27, and 31-34 in Create *)
Definition rw_destroy (w : world) (o : rwobj) : res world :=
  let* w1 := free_opt w Handle (r_wmutex o) in
  let* w2 := free_opt w1 Handle (r_event o) in
  let* w3 := free_opt w2 Handle (r_sem o) in
  free_opt w3 Handle (r_mutex o).

(** 29-66; [b0] to [b3]: the four system calls succeed *)
Definition rw_create (w : world) (o : rwobj) (name b0 b1 b2 b3 : bool) : res (world * rwobj * bool) :=
  let* w0 := rw_destroy w o in
  let '(w1, n2) := new_opt w0 Heap name in
  let '(w2, h0) := new_opt w1 Handle b0 in
  let '(w3, h1) := new_opt w2 Handle b1 in
  let '(w4, h2) := new_opt w3 Handle b2 in
  let '(w5, h3) := new_opt w4 Handle b3 in
  let* w6 := free_opt w5 Heap n2 in
  Ok (w6, RW h0 h1 h2 h3, b0 && b1 && b2 && b3).

Inductive rw_op := RCreate (name b0 b1 b2 b3 : bool) | RReadLock | RWriteLock | RReadUnlock | RWriteUnlock.

(** all the handles exist, and are used *)
Fixpoint use_all (w : world) (l : list (option nat)) : res bool :=
  match l with
  | [] => Ok true
  | None :: _ => Ok false
  | Some r :: t => let* b := use_all w t in if b then (if is_live w Handle r then Ok true else UB) else Ok false
  end.

(** the checks 72, 121, 144, 178; the answer is whether the call gets past them *)
Definition rw_step (w : world) (o : rwobj) (op : rw_op) : res (world * rwobj * bool) :=
  match op with
  | RCreate name b0 b1 b2 b3 => rw_create w o name b0 b1 b2 b3
  | RReadLock => let* b := use_all w [r_sem o; r_mutex o; r_event o; r_wmutex o] in Ok (w, o, b)
  | RWriteLock => let* b := use_all w [r_event o; r_wmutex o] in Ok (w, o, b)
  | RReadUnlock => let* b := use_all w [r_mutex o; r_sem o; r_event o] in Ok (w, o, b)
  | RWriteUnlock => let* b := use_all w [r_wmutex o] in Ok (w, o, b)
  end.

(** ** SharedMem on POSIX: sync_sharedmem.cpp:73-109 *)

(** MxMemInternal *)
Inductive s_op := SCreate (name ok : bool).

Definition sp_step (w : world) (m : option nat) (op : s_op) : res (world * option nat * bool) :=
  match op with
  | SCreate name ok =>
      if negb name then Ok (w, m, false)
      else
        let* w1 := free_opt w Mapping m in
        let '(w2, m2) := new_opt w1 Mapping ok in
        Ok (w2, m2, ok)
  end.

Definition sp_destroy (w : world) (m : option nat) : res world := free_opt w Mapping m.

(** ** SharedMem on Windows: sync_sharedmem.cpp:19-69 *)

(** MxMem, MxFile *)
Record wsobj := WS { ws_view : option nat; ws_file : option nat }.

Definition ws_new : wsobj := WS None None.

(** 23-27, and 33-34 in Create *)
Definition ws_destroy (w : world) (o : wsobj) : res world :=
  let* w1 := free_opt w View (ws_view o) in
  free_opt w1 Handle (ws_file o).

Inductive ws_op := WSCreate (name made opened mapped : bool).

(** 29-69; [made], [opened], [mapped]: CreateFileMappingA, OpenFileMappingA, MapViewOfFile succeed *)
Definition ws_step (w : world) (o : wsobj) (op : ws_op) : res (world * wsobj * bool) :=
  match op with
  | WSCreate name made opened mapped =>
      if negb name then Ok (w, o, false)
      else
        let* w1 := ws_destroy w o in
        let '(w2, n2) := new w1 Heap in
        let '(w3, f) := new_opt w2 Handle (made || opened) in
        match f with
        | None => Ok (w3, WS None None, false)
        | Some _ =>
            let* w4 := free w3 Heap n2 in
            let '(w5, v) := new_opt w4 View mapped in
            Ok (w5, WS v f, mapped)
        end
  end.

(** ** Mutex on Windows: sync_mutex.cpp:12-126 *)

(** MxWinMutex, MxOwnerID, MxCount; no thread has the number 0 *)
Record wmobj := WM { wm_h : option nat; wm_owner : option nat; wm_cnt : nat }.

Definition wm_new : wmobj := WM None None 0.

Definition owned (owner : option nat) (t : nat) : bool :=
  match owner with Some u => u =? t | None => false end.

Inductive wm_op := MCreate (t : nat) (ok : bool) | MLock (t : nat) (got : bool) | MUnlock (t : nat) (all : bool).

(** 101-126 *)
Definition wm_unlock (w : world) (o : wmobj) (t : nat) (all : bool) : res (world * wmobj * bool) :=
  match wm_h o with
  | None => Ok (w, o, false)
  | Some h =>
      if negb (owned (wm_owner o) t) then Ok (w, o, false)
      else
        let c := (if all then 1 else wm_cnt o) - 1 in
        if c =? 0 then if is_live w Handle h then Ok (w, WM (Some h) None 0, true) else UB
        else Ok (w, WM (Some h) (wm_owner o) c, true)
  end.

(** 25-64, 66-99; [got]: WaitForSingleObject gives WAIT_OBJECT_0 *)
Definition wm_step (w : world) (o : wmobj) (op : wm_op) : res (world * wmobj * bool) :=
  match op with
  | MCreate t ok =>
      if 0 <? wm_cnt o then
        if owned (wm_owner o) t then
          let* w1 := free_opt w Handle (wm_h o) in
          let '(w2, h) := new_opt w1 Handle ok in
          Ok (w2, WM h None 0, ok)
        else Ok (w, o, false)
      else
        let '(w2, h) := new_opt w Handle ok in
        Ok (w2, WM h (wm_owner o) (wm_cnt o), ok)
  | MLock t got =>
      match wm_h o with
      | None => Ok (w, o, false)
      | Some h =>
          if owned (wm_owner o) t then Ok (w, WM (wm_h o) (wm_owner o) (S (wm_cnt o)), true)
          else if negb (is_live w Handle h) then UB
          else if got then Ok (w, WM (wm_h o) (Some t) 1, true) else Ok (w, o, false)
      end
  | MUnlock t all => wm_unlock w o t all
  end.

(** 17-23 *)
Definition wm_destroy (w : world) (o : wmobj) (t : nat) : res world :=
  let* (w1, o1, _) := wm_unlock w o t true in
  free_opt w1 Handle (wm_h o1).

(** ** Mutex on POSIX, several objects, in any number of processes: sync_mutex.cpp:129-257 *)

(** MxMem and MxNamed: no memory, a block of its own, the shared memory of a name; the value of the
    semaphore in its own block; MxCount (taken as unbounded); MxOwnerID *)
Record mx := Mx { m_place : option (option nat); m_sem : nat; m_cnt : nat; m_owner : option nat }.

Definition mx_new : mx := Mx None 0 0 None.

(** for every name, the references counted in the shared memory and the value of the semaphore in it;
    the live blocks of memory; the objects *)
Record sys := Sys { s_refs : nat -> nat; s_val : nat -> nat; s_heap : nat; s_objs : list mx }.

Definition put (f : nat -> nat) (n v : nat) : nat -> nat := fun x => if x =? n then v else f x.

Fixpoint set_obj (l : list mx) (i : nat) (o : mx) : list mx :=
  match l, i with
  | [], _ => []
  | _ :: t, 0 => o :: t
  | h :: t, S j => h :: set_obj t j o
  end.

Inductive mop :=
  | XCreate (i t : nat) (name : option nat) (ok : bool)
  | XLock (i t : nat)
  | XUnlock (i t : nat) (all : bool)
  | XDestroy (i t : nat).

(** UnmapUnixNamedMem (sync_util.cpp:308-324), or FreeUnixSemaphore and delete[] *)
Definition x_drop (s : sys) (o : mx) : sys :=
  match m_place o with
  | None => s
  | Some None => Sys (s_refs s) (s_val s) (s_heap s - 1) (s_objs s)
  | Some (Some n) => Sys (put (s_refs s) n (s_refs s n - 1)) (s_val s) (s_heap s) (s_objs s)
  end.

(** 181-204: with InitUnixNamedMem (sync_util.cpp:120-301), which says whether this is the first
    reference (239, 279-288); then InitUnixSemaphore(1, 1) *)
Definition x_init (s : sys) (o : mx) (i : nat) (name : option nat) (ok : bool) : sys * bool :=
  match name with
  | None => (Sys (s_refs s) (s_val s) (S (s_heap s)) (set_obj (s_objs s) i (Mx (Some None) 1 (m_cnt o) (m_owner o))), true)
  | Some n =>
      if ok then
        (Sys (put (s_refs s) n (S (s_refs s n))) (if s_refs s n =? 0 then put (s_val s) n 1 else s_val s) (s_heap s)
             (set_obj (s_objs s) i (Mx (Some (Some n)) 0 (m_cnt o) (m_owner o))), true)
      else (Sys (s_refs s) (s_val s) (s_heap s) (set_obj (s_objs s) i (Mx None 0 (m_cnt o) (m_owner o))), false)
  end.

(** 152-205 *)
Definition x_create (s : sys) (o : mx) (i t : nat) (name : option nat) (ok : bool) : sys * bool :=
  if 0 <? m_cnt o then
    if owned (m_owner o) t then x_init (x_drop s o) mx_new i name ok else (s, false)
  else x_init s o i name ok.

(** 207-230; a call that cannot get the semaphore comes back when its time is over *)
Definition x_lock (s : sys) (o : mx) (i t : nat) : res (sys * bool) :=
  if owned (m_owner o) t then
    Ok (Sys (s_refs s) (s_val s) (s_heap s) (set_obj (s_objs s) i (Mx (m_place o) (m_sem o) (S (m_cnt o)) (m_owner o))), true)
  else
    match m_place o with
    | None => UB
    | Some None =>
        if m_sem o =? 0 then Ok (s, false)
        else Ok (Sys (s_refs s) (s_val s) (s_heap s) (set_obj (s_objs s) i (Mx (m_place o) (m_sem o - 1) 1 (Some t))), true)
    | Some (Some n) =>
        if s_val s n =? 0 then Ok (s, false)
        else Ok (Sys (s_refs s) (put (s_val s) n (s_val s n - 1)) (s_heap s)
                     (set_obj (s_objs s) i (Mx (m_place o) (m_sem o) 1 (Some t))), true)
    end.

(** 232-257; ReleaseUnixSemaphore does not count beyond the maximum, 1 *)
Definition x_unlock (s : sys) (o : mx) (i t : nat) (all : bool) : res (sys * bool) :=
  if negb (owned (m_owner o) t) then Ok (s, false)
  else
    let c := (if all then 1 else m_cnt o) - 1 in
    if c =? 0 then
      match m_place o with
      | None => UB
      | Some None =>
          Ok (Sys (s_refs s) (s_val s) (s_heap s) (set_obj (s_objs s) i (Mx (m_place o) (Nat.min 1 (S (m_sem o))) 0 None)), true)
      | Some (Some n) =>
          Ok (Sys (s_refs s) (put (s_val s) n (Nat.min 1 (S (s_val s n)))) (s_heap s)
                  (set_obj (s_objs s) i (Mx (m_place o) (m_sem o) 0 None)), true)
      end
    else Ok (Sys (s_refs s) (s_val s) (s_heap s) (set_obj (s_objs s) i (Mx (m_place o) (m_sem o) c (m_owner o))), true).

(** 134-150; the slot is then that of a new object *)
Definition x_destroy (s : sys) (o : mx) (i t : nat) : res (sys * bool) :=
  let* (s1, _) := x_unlock s o i t true in
  let s2 := x_drop s1 o in
  Ok (Sys (s_refs s2) (s_val s2) (s_heap s2) (set_obj (s_objs s2) i mx_new), true).

(** a call on an object that is not there is not a call *)
Definition x_step (s : sys) (op : mop) : res (sys * bool) :=
  let i := match op with XCreate i _ _ _ | XLock i _ | XUnlock i _ _ | XDestroy i _ => i end in
  match nth_error (s_objs s) i with
  | None => Ok (s, false)
  | Some o =>
      match op with
      | XCreate _ t name ok => Ok (x_create s o i t name ok)
      | XLock _ t => x_lock s o i t
      | XUnlock _ t all => x_unlock s o i t all
      | XDestroy _ t => x_destroy s o i t
      end
  end.

Fixpoint x_run (s : sys) (l : list mop) : res (sys * list bool) :=
  match l with
  | [] => Ok (s, [])
  | op :: r =>
      let* (s1, b) := x_step s op in
      let* (s2, bs) := x_run s1 r in
      Ok (s2, b :: bs)
  end.

(** [k] objects, nothing else *)
Definition x_start (k : nat) : sys := Sys (fun _ => 0) (fun _ => 0) 0 (repeat mx_new k).
