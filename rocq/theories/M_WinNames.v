(** The names of kernel objects on Windows: sync/sync_mutex.cpp 53, sync_semaphore.cpp 32, sync_event.cpp
    32, sync_readwritelock.cpp 48-62, sync_sharedmem.cpp 46-58.  Definitions only.

    All kernel objects have their names in one name space.  CreateXxxA opens the object if there is one of
    this kind, makes it if there is none of this name, and returns NULL if there is one of another kind.
    Handles are not closed, calls do not fail for other reasons, and names are told apart byte for byte
    (the limit on the length of names and the meaning of backslashes are not modelled).  Initial values
    play no role.  *)
From Verif Require Import Base S_WinNames M_Name.
Open Scope N_scope.

Inductive kind := KMutex | KSemaphore | KEvent | KMapping.
Definition kind_eqb (a b : kind) : bool :=
  match a, b with KMutex, KMutex | KSemaphore, KSemaphore | KEvent, KEvent | KMapping, KMapping => true | _, _ => false end.

(** The kernel objects, by number. *)
Definition kernel := list (bytes * kind).
Fixpoint find_name (k : kernel) (nm : bytes) (i : nat) : option (nat * kind) :=
  match k with
  | [] => None
  | (m, t) :: r => if list_eq_dec N.eq_dec m nm then Some (i, t) else find_name r nm (S i)
  end.
(** CreateMutexA, CreateSemaphoreA, CreateEventA, CreateFileMappingA *)
Definition kcreate (k : kernel) (t : kind) (nm : bytes) : kernel * option nat :=
  match find_name k nm 0 with
  | Some (i, t') => (k, if kind_eqb t t' then Some i else None)
  | None => (k ++ [(nm, t)], Some (length k))
  end.

(** sprintf into a new array, which is then read as a string *)
Definition made (cap : nat) (init : N) (txt : bytes) : res bytes := let* b := blit (repeat init cap) 0 (txt ++ [0]) in cstr b.

(** The calls of one Create: kinds and names, in order.  [init]: what the new array holds. *)
Definition calls (init : N) (c : class) (name : bytes) (size : N) : res (list (kind * bytes)) :=
  match c with
  | CMutex => Ok [(KMutex, name)]                                                       (* sync_mutex.cpp 53 *)
  | CSemaphore => Ok [(KSemaphore, name)]                                               (* sync_semaphore.cpp 32 *)
  | CEvent => Ok [(KEvent, name)]                                                       (* sync_event.cpp 32 *)
  | CReadWrite =>                                                                       (* sync_readwritelock.cpp 49-59 *)
      let cap := (length name + 20)%nat in
      let rw := [45; 83; 121; 110; 99; 95; 82; 101; 97; 100; 87; 114; 105; 116; 101; 45] in
      let* n0 := made cap init (name ++ rw ++ [48]) in
      let* n1 := made cap init (name ++ rw ++ [49]) in
      let* n2 := made cap init (name ++ rw ++ [50]) in
      let* n3 := made cap init (name ++ rw ++ [51]) in
      Ok [(KSemaphore, n0); (KSemaphore, n1); (KEvent, n2); (KSemaphore, n3)]
  | CSharedMem =>                                                                       (* sync_sharedmem.cpp 46-50 *)
      let* n0 := made (length name + 30) init (name ++ [45] ++ utoa 10 (size mod W32) [] ++ [45; 83; 121; 110; 99; 95; 83; 104; 97; 114; 101; 100; 77; 101; 109]) in
      Ok [(KMapping, n0)]
  end.

Fixpoint make_all (k : kernel) (l : list (kind * bytes)) : kernel * list (option nat) :=
  match l with
  | [] => (k, [])
  | (t, nm) :: r => let (k1, o) := kcreate k t nm in let (k2, os) := make_all k1 r in (k2, o :: os)
  end.
(** Create: the handles, and whether all are there.  (SharedMem tries OpenFileMappingA if
    CreateFileMappingA fails, 53, which fails as well if the kind is wrong.) *)
Definition create (init : N) (k : kernel) (c : class) (name : bytes) (size : N) : res (kernel * list (option nat) * bool) :=
  let* l := calls init c name size in
  let (k', os) := make_all k l in
  Ok (k', os, forallb (fun o : option nat => match o with Some _ => true | None => false end) os).
