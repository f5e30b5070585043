(** Model of the memory layout of synchronisation objects (sync/sync_util.cpp and the Create
    functions) and of SharedMem (sync/sync_sharedmem.cpp).  Definitions only. *)
From Verif Require Import Base S_Layout M_Named.
Open Scope N_scope.

(** sync_util.cpp 97-109: sizeof(y) - sizeof(x), where x is an int and y an int and a char; an int
    has the size and alignment [int]. *)
Definition GetUnixSystemAlignmentSize (int : N) : N := align_size int (int + 1) - int.

Section Layout.
(** the alignment size; size and alignment of pthread_mutex_t and pthread_cond_t *)
Variables align mutex mneed cond cneed : N.
Notation A := (align_size align).

(** sync_util.cpp 328-331 *)
Definition GetUnixSemaphoreSize : N := A mutex + A 4 + A 4 + A cond.
(** 333-345: MxMutex, MxCount, MxMax, MxCond *)
Definition GetUnixSemaphore (Mem : N) : list piece :=
  [ Piece Mem mutex mneed;
    Piece (Mem + A mutex) 4 4;
    Piece (Mem + A mutex + A 4) 4 4;
    Piece (Mem + A mutex + A 4 + A 4) cond cneed ].
(** 464-467 *)
Definition GetUnixEventSize : N := A mutex + A 2 + A 4 + A cond.
(** 469-482: MxMutex, MxManual, MxSignaled, MxWaiting, MxCond *)
Definition GetUnixEvent (Mem : N) : list piece :=
  [ Piece Mem mutex mneed;
    Piece (Mem + A mutex) 1 1;
    Piece (Mem + A mutex + 1) 1 1;
    Piece (Mem + A mutex + A 2) 4 4;
    Piece (Mem + A mutex + A 2 + A 4) cond cneed ].

Inductive kind := KMutex | KSemaphore | KEvent | KReadWrite | KShared (n : N).

(** sync_mutex.cpp 181, sync_semaphore.cpp 95, sync_event.cpp 102, sync_readwritelock.cpp 225,
    sync_sharedmem.cpp 91 *)
Definition TempSize (k : kind) : N :=
  match k with
  | KMutex | KSemaphore => GetUnixSemaphoreSize
  | KEvent => GetUnixEventSize
  | KReadWrite => GetUnixSemaphoreSize + A 4 + GetUnixEventSize + GetUnixSemaphoreSize
  | KShared n => n
  end.
(** sync_mutex.cpp 192, sync_semaphore.cpp 101, sync_event.cpp 108, sync_readwritelock.cpp 232-242,
    sync_sharedmem.cpp 97 *)
Definition contents_at (k : kind) (Pos : N) : list piece :=
  match k with
  | KMutex | KSemaphore => GetUnixSemaphore Pos
  | KEvent => GetUnixEvent Pos
  | KReadWrite =>
      GetUnixSemaphore Pos ++ Piece (Pos + GetUnixSemaphoreSize) 4 4 ::
      GetUnixEvent (Pos + GetUnixSemaphoreSize + A 4) ++
      GetUnixSemaphore (Pos + GetUnixSemaphoreSize + A 4 + GetUnixEventSize)
  | KShared n => [ Piece Pos n 1 ]
  end.
(** sync_util.cpp 231-238: the status byte, the mutex and the reference count of a named object *)
Definition header : list piece := [ Piece 0 1 1; Piece (A 1) mutex mneed; Piece (A 1 + A mutex) 4 4 ].
(** 124: a named object has a header; all pieces of an object *)
Definition pieces (named : bool) (k : kind) : list piece :=
  if named then header ++ contents_at k (start_pos align mutex) else contents_at k 0.
(** 129-130, 134, 223: the bytes allocated, when the sums fit in a size_t *)
Definition allocated (named : bool) (k : kind) : N :=
  if named then object_size align mutex (TempSize k) else A (TempSize k).
(** The same with a size_t of 64 bits. *)
Definition allocated64 (k : kind) : N :=
  let n := (TempSize k + start_pos align mutex) mod W64 in
  if n mod align =? 0 then n else (n + (align - n mod align)) mod W64.

End Layout.

(** ** SharedMem *)
(** MxFirst; whether the object is open *)
Record shm := Shm { first : bool; isopen : bool }.
Definition shm_new : shm := Shm false false.
(** sync_sharedmem.cpp 82-109, POSIX: InitUnixNamedMem returns 0 for a new object *)
Definition Create_posix (s : shm) (c : shm_call) : shm :=
  match c with
  | ShmNoName => s
  | ShmCreate (Some fresh) true => Shm (if fresh then true else first s) true
  | ShmCreate _ _ => Shm (first s) false
  end.
(** 29-69, Windows *)
Definition Create_win (s : shm) (c : shm_call) : shm :=
  match c with
  | ShmNoName => s
  | ShmCreate None _ => Shm false false
  | ShmCreate (Some fresh) mapped => Shm fresh mapped
  end.
(** 50, 63: the sizes of the object and of the mapping are DWORDs; MxSize is Size *)
Definition mapped_win (Size : N) : N := Size mod W32.
