(** How long libraries stay loaded: templates/shared_lib.h (POSIX 125-180, and
    Windows 19-73, which is the same with LoadLibraryA, GetProcAddress and
    FreeLibrary) and shared_lib_util.h (70-127, Windows 8-66).  Definitions only.

    The system counts for each library how often it was opened; when as many
    closings have come, it is gone, and a call into it or a further closing is
    undefined.  A handle is the library itself.  The functions called do not
    open or close libraries.  [ok] and [sym] are the answers of dlopen and dlsym. *)
From Verif Require Import Base S_LibLife.

(** shared_lib.h:149-151: MxFilename, MxModulePtr; 175-178: MxModule, MxFuncName,
    MxFuncPtr (the library and the function the pointer leads to). *)
Record lib := Lib { lfile : option nat; lptr : option nat }.
Record fn := Fn { fowner : nat; ftext : option nat; faddr : option (nat * nat) }.
(** The counts of the system; the objects, None: destroyed. *)
Record lstate := LState { count : nat -> nat; libs : list (option lib); fns : list fn }.
Definition lstate0 : lstate := LState (fun _ => 0) [] [].

Definition set_lib (s : lstate) (m : nat) (x : option lib) : lstate := LState (count s) (upd (libs s) m x) (fns s).
Definition set_fn (s : lstate) (f : nat) (x : fn) : lstate := LState (count s) (libs s) (upd (fns s) f x).
Definition opened (s : lstate) (k : nat) : lstate := LState (bump (count s) k) (libs s) (fns s).
(** dlclose *)
Definition closed (s : lstate) (k : nat) : res lstate :=
  if Nat.eqb (count s k) 0 then UB else Ok (LState (drop1 (count s) k) (libs s) (fns s)).
(** A call through a pointer *)
Definition enter (s : lstate) (p : nat * nat) : res (lstate * option (nat * nat)) :=
  if Nat.eqb (count s (fst p)) 0 then UB else Ok (s, Some p).

(** shared_lib.h:137-147 — Load *)
Definition l_load (s : lstate) (m : nat) (ok : bool) : res (lstate * option nat) :=
  match nth_error (libs s) m with
  | Some (Some x) =>
      match lptr x, lfile x with
      | Some k, _ => Ok (s, Some k)
      | None, None => Ok (s, None)
      | None, Some k =>
          if ok then Ok (set_lib (opened s k) m (Some (Lib None (Some k))), Some k)
          else Ok (set_lib s m (Some (Lib None None)), None)
      end
  | _ => UB
  end.

(** shared_lib.h:163-173 — LoadFuncPtr *)
Definition f_load (s : lstate) (f : nat) (ok sym : bool) : res (lstate * option (nat * nat)) :=
  match nth_error (fns s) f with
  | None => UB
  | Some x =>
      match ftext x with
      | None => Ok (s, None)
      | Some n =>
          let s1 := set_fn s f (Fn (fowner x) None (faddr x)) in
          let* (s2, h) := l_load s1 (fowner x) ok in
          match h with
          | None => Ok (s2, None)
          | Some k =>
              let p := if sym then Some (k, n) else None in
              Ok (set_fn s2 f (Fn (fowner x) None p), p)
          end
      end
  end.

(** shared_lib.h:161 — GetFuncPtr *)
Definition f_get (s : lstate) (f : nat) : res (option (nat * nat)) :=
  match nth_error (fns s) f with Some x => Ok (faddr x) | None => UB end.

(** shared_lib_util.h:70-80; None: returned false *)
Definition l_call (s : lstate) (f : nat) (ok sym : bool) : res (lstate * option (nat * nat)) :=
  let* p := f_get s f in
  match p with
  | Some a => enter s a
  | None => let* (s1, q) := f_load s f ok sym in match q with Some a => enter s1 a | None => Ok (s1, None) end
  end.

(** shared_lib_util.h:82-92 *)
Definition l_call_void (s : lstate) (f : nat) (ok sym : bool) : res (lstate * option (nat * nat)) :=
  let* p := f_get s f in
  match p with
  | None => Ok (s, None)
  | Some _ => let* (s1, q) := f_load s f ok sym in match q with Some a => enter s1 a | None => Ok (s1, None) end
  end.

(** shared_lib_util.h:95-110, 113-128 *)
Definition l_once (s : lstate) (file name : nat) (ok sym : bool) : res (lstate * option (nat * nat)) :=
  if negb ok then Ok (s, None)
  else let s1 := opened s file in if sym then enter s1 (file, name) else Ok (s1, None).

(** shared_lib.h:132-135 — ~ModuleUtil *)
Definition l_destroy (s : lstate) (m : nat) : res lstate :=
  match nth_error (libs s) m with
  | Some (Some x) =>
      let* s1 := match lptr x with Some k => closed s k | None => Ok s end in
      Ok (set_lib s1 m None)
  | _ => UB
  end.

(** The copy constructor C++ supplies, as the class (125-152) declares none:
    the new object has number length (libs s). *)
Definition l_copy (s : lstate) (m : nat) : res lstate :=
  match nth_error (libs s) m with
  | Some (Some x) => Ok (LState (count s) (libs s ++ [Some x]) (fns s))
  | _ => UB
  end.

Definition lexec (s : lstate) (o : lop) : res (lstate * option (nat * nat)) :=
  match o with
  | NewLib file => Ok (LState (count s) (libs s ++ [Some (Lib (Some file) None)]) (fns s), None)   (* 128-130 *)
  | NewFun m name => Ok (LState (count s) (libs s) (fns s ++ [Fn m (Some name) None]), None)       (* 157-159 *)
  | CallFun f ok sym => l_call s f ok sym
  | CallFunVoid f ok sym => l_call_void s f ok sym
  | CallOnce file name ok sym | CallOnceVoid file name ok sym => l_once s file name ok sym
  | DestroyLib m => let* s1 := l_destroy s m in Ok (s1, None)
  | OtherOpen k => Ok (opened s k, None)
  | OtherClose k => let* s1 := closed s k in Ok (s1, None)
  end.

Fixpoint lrun (s : lstate) (os : list lop) : res (lstate * list (option (nat * nat))) :=
  match os with
  | [] => Ok (s, [])
  | o :: r => let* (s1, x) := lexec s o in let* (s2, xs) := lrun s1 r in Ok (s2, x :: xs)
  end.
