(** Model of the semaphores and events of both platforms as programs see them one call after the
    other, with a waiting time of 0: sync/sync_semaphore.cpp 22-57 (Windows) and 79-126 (POSIX),
    sync/sync_event.cpp 22-70 (Windows) and 91-152 (POSIX), and of sync/sync_util.cpp
    InitUnixSemaphore 346-368, WaitForUnixSemaphore 370-439, ReleaseUnixSemaphore 441-455,
    InitUnixEvent 484-506, WaitForUnixEvent 508-585, FireUnixEvent, ResetUnixEvent.
    Definitions only.

    Concurrent calls are the subject of M_Sem and M_Event.  System calls do not fail other than
    as described, and names of different objects are different (M_Name says when); a name is a
    number.  What the Windows calls do is their documentation. *)
From Verif Require Import Base.
Open Scope N_scope.

Inductive kind := KSem | KEvent.
Definition other_kind (k : kind) : kind := match k with KSem => KEvent | KEvent => KSem end.
Definition kind_eqb (a b : kind) : bool := match a, b with KSem, KSem | KEvent, KEvent => true | _, _ => false end.

(** A named object, or that of the C++ object [i]. *)
Inductive key := Named (k : kind) (s : N) | Private (i : nat).
Definition key_eqb (a b : key) : bool :=
  match a, b with
  | Named k s, Named l t => kind_eqb k l && (s =? t)
  | Private i, Private j => (i =? j)%nat
  | _, _ => false
  end.

Inductive obj := OSem (count max : N) | OEvent (manual signaled : bool).

Record world := World { store : key -> option obj; refs : nat -> option key }.
Definition set_store (w : world) (k : key) (o : option obj) : world :=
  World (fun x => if key_eqb x k then o else store w x) (refs w).
Definition set_ref (w : world) (i : nat) (k : option key) : world :=
  World (store w) (fun j => if (j =? i)%nat then k else refs w j).

Inductive op :=
| Create (i : nat) (name : option N) (v : Z) (manual prefire : bool)
| Destroy (i : nat)
| Lock (i : nat)      (* Semaphore::Lock(0), Event::Wait(0) *)
| Unlock (i : nat)    (* Semaphore::Unlock(&PrevCount) *)
| Fire (i : nat)
| Reset (i : nat).

(** What is returned, and PrevCount if it is set. *)
Definition ans : Type := (bool * option Z)%type.

Definition W32 : N := 4294967296.
(** (std::uint32_t)InitialVal and (int)Count *)
Definition u32 (z : Z) : N := Z.to_N (z mod 4294967296).
Definition i32 (n : N) : Z := if n <? 2147483648 then Z.of_N n else Z.of_N n - 4294967296.

Section Kinds.
(** The class of each C++ object; how many there are. *)
Variable kindof : nat -> kind.
Variable n : nat.

Definition key_of (i : nat) (name : option N) : key :=
  match name with Some s => Named (kindof i) s | None => Private i end.
Definition fresh (i : nat) (v : Z) (manual prefire : bool) : obj :=
  match kindof i with KSem => OSem (u32 v) (u32 v) | KEvent => OEvent manual prefire end.
(** Make the object unless one of that name exists, and refer to it. *)
Definition attach (w : world) (i : nat) (name : option N) (o : obj) : world :=
  let k := key_of i name in
  let w1 := match name, store w k with Some _, Some _ => w | _, _ => set_store w k (Some o) end in
  set_ref w1 i (Some k).

(** The object that [i] refers to. *)
Definition get (w : world) (i : nat) : option (key * obj) :=
  match refs w i with
  | None => None
  | Some k => match store w k with None => None | Some o => Some (k, o) end
  end.

(** Waiting without blocking, the same on both platforms. *)
Definition try (w : world) (i : nat) : world * ans :=
  match get w i with
  | Some (k, OSem c m) => if c =? 0 then (w, (false, None)) else (set_store w k (Some (OSem (c - 1) m)), (true, None))
  | Some (k, OEvent manual true) => (set_store w k (Some (OEvent manual manual)), (true, None))
  | _ => (w, (false, None))
  end.
Definition fire (w : world) (i : nat) : world * ans :=
  match get w i with
  | Some (k, OEvent manual _) => (set_store w k (Some (OEvent manual true)), (true, None))
  | _ => (w, (false, None))
  end.

(** ** POSIX.  Named objects are never removed (there is no shm_unlink); memory of unnamed ones is
    freed, after which nothing refers to it. *)
Definition p_release (w : world) (i : nat) : world := set_ref w i None.

(** ReleaseUnixSemaphore, 445-447 *)
Definition p_unlock (w : world) (i : nat) : world * ans :=
  match get w i with
  | Some (k, OSem c m) =>
      let c1 := (c + 1) mod W32 in
      (set_store w k (Some (OSem (if m <? c1 then m else c1) m)), (true, Some (i32 c)))
  | _ => (w, (false, None))
  end.
(** ResetUnixEvent *)
Definition p_reset (w : world) (i : nat) : world * ans :=
  match get w i with
  | Some (k, OEvent true _) => (set_store w k (Some (OEvent true false)), (true, None))
  | _ => (w, (false, None))
  end.

Definition p_step (w : world) (o : op) : world * ans :=
  match o with
  | Create i name v m p => (attach (p_release w i) i name (fresh i v m p), (true, None))
  | Destroy i => (p_release w i, (true, None))
  | Lock i => try w i
  | Unlock i => p_unlock w i
  | Fire i => fire w i
  | Reset i => p_reset w i
  end.

(** ** Windows.  An object exists while some handle refers to it. *)
Definition referred (w : world) (k : key) : bool :=
  existsb (fun j => match refs w j with Some x => key_eqb x k | None => false end) (seq 0 n).
Definition w_release (w : world) (i : nat) : world :=
  match refs w i with
  | None => w
  | Some k => let w1 := set_ref w i None in if referred w1 k then w1 else set_store w1 k None
  end.

(** ReleaseSemaphore fails if the count would exceed the maximum. *)
Definition w_unlock (w : world) (i : nat) : world * ans :=
  match get w i with
  | Some (k, OSem c m) =>
      if c <? m then (set_store w k (Some (OSem (c + 1) m)), (true, Some (i32 c))) else (w, (false, None))
  | _ => (w, (false, None))
  end.
Definition w_reset (w : world) (i : nat) : world * ans :=
  match get w i with
  | Some (k, OEvent manual _) => (set_store w k (Some (OEvent manual false)), (true, None))
  | _ => (w, (false, None))
  end.

(** CreateSemaphoreA fails if the maximum is not positive, CreateEventA and CreateSemaphoreA if the
    name is that of an object of another kind. *)
Definition w_step (w : world) (o : op) : world * ans :=
  match o with
  | Create i name v m p =>
      let w0 := w_release w i in
      let bad := match kindof i with KSem => (v <=? 0)%Z | KEvent => false end in
      let clash := match name with
        | Some s => match store w0 (Named (other_kind (kindof i)) s) with Some _ => true | None => false end
        | None => false
        end in
      if bad || clash then (w0, (false, None)) else (attach w0 i name (fresh i v m p), (true, None))
  | Destroy i => (w_release w i, (true, None))
  | Lock i => try w i
  | Unlock i => w_unlock w i
  | Fire i => fire w i
  | Reset i => w_reset w i
  end.

Fixpoint run (step : world -> op -> world * ans) (w : world) (l : list op) : list ans :=
  match l with
  | [] => []
  | o :: r => let '(w1, a) := step w o in a :: run step w1 r
  end.
End Kinds.

Definition start : world := World (fun _ => None) (fun _ => None).
