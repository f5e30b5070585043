(** Model of templates/shared_lib.h and shared_lib_util.h, POSIX part.  Definitions only.

    Modules and functions are identified by numbers.  A program is a history of calls over any
    number of ModuleUtil and FunctionUtil objects.  What dlopen and dlsym answer may depend on
    the moment: the environment gets the number of events so far.  Destruction (dlclose) is
    left out. *)
From Verif Require Import Base S_Seq.

(** Everything the outside sees. *)
Inductive event :=
| EOpen (file : N)                    (* dlopen *)
| ESym (handle name : N)              (* dlsym *)
| ECall (ptr : N) (args : list N).    (* a call through the pointer *)

Record env := Env {
  dlopen : nat -> N -> option N;         (* moment, file name *)
  dlsym : nat -> N -> N -> option N;     (* moment, handle, function name *)
  result : N -> list N -> N              (* what the functions return *)
}.

(** 149-152: MxFilename, MxModulePtr. 175-179: MxModule, MxFuncName, MxFuncPtr. *)
Record module_ := LibState { mfile : option N; mptr : option N }.
Record func := Func { fmod : nat; fname : option N; fptr : option N }.
Record world := World { mods : nat -> module_; funcs : nat -> func; trace : list event }.

Section Env.
Variable e : env.
Definition now (w : world) : nat := length (trace w).
Definition emit (w : world) (x : event) : world := World (mods w) (funcs w) (trace w ++ [x]).

(** 137-147 — Load *)
Definition Load (w : world) (m : nat) : world * option N :=
  match mptr (mods w m) with
  | Some p => (w, Some p)
  | None =>
      match mfile (mods w m) with
      | None => (w, None)
      | Some f =>
          let p := dlopen e (now w) f in
          let w1 := emit w (EOpen f) in
          (World (fupd (mods w1) m (LibState None p)) (funcs w1) (trace w1), p)
      end
  end.

(** 163-173 — LoadFuncPtr *)
Definition LoadFuncPtr (w : world) (f : nat) : world * option N :=
  match fname (funcs w f) with
  | None => (w, None)
  | Some nm =>
      let m := fmod (funcs w f) in
      let w1 := World (mods w) (fupd (funcs w) f (Func m None (fptr (funcs w f)))) (trace w) in
      let '(w2, h) := Load w1 m in
      match h with
      | None => (w2, None)
      | Some h =>
          let p := dlsym e (now w2) h nm in
          let w3 := emit w2 (ESym h nm) in
          (World (mods w3) (fupd (funcs w3) f (Func m None p)) (trace w3), p)
      end
  end.

(** shared_lib_util.h:71-80 — Call: the value stored in ReturnVal, [None] for false. *)
Definition Call (w : world) (f : nat) (args : list N) : world * option N :=
  let '(w1, p) := match fptr (funcs w f) with
                  | Some p => (w, Some p)
                  | None => LoadFuncPtr w f
                  end in
  match p with
  | None => (w1, None)
  | Some p => (emit w1 (ECall p args), Some (result e p args))
  end.

(** 83-92 — CallVoid.  The condition is joined with || : it fails when the pointer is not
    there yet, and when it is there it asks LoadFuncPtr again. *)
Definition CallVoid (w : world) (f : nat) (args : list N) : world * bool :=
  match fptr (funcs w f) with
  | None => (w, false)
  | Some _ =>
      let '(w1, p) := LoadFuncPtr w f in
      match p with
      | None => (w1, false)
      | Some p => (emit w1 (ECall p args), true)
      end
  end.

(** 96-110 and 113-128 — CallOnce and CallOnceVoid *)
Definition CallOnce (w : world) (file name : N) (args : list N) : world * option N :=
  let h := dlopen e (now w) file in
  let w1 := emit w (EOpen file) in
  match h with
  | None => (w1, None)
  | Some h =>
      let p := dlsym e (now w1) h name in
      let w2 := emit w1 (ESym h name) in
      match p with
      | None => (w2, None)
      | Some p => (emit w2 (ECall p args), Some (result e p args))
      end
  end.
Definition CallOnceVoid (w : world) (file name : N) (args : list N) : world * bool :=
  let '(w1, r) := CallOnce w file name args in (w1, match r with Some _ => true | None => false end).
End Env.

(** 128-130, 157-159 — constructors: module [m] is file [file m], function [f] is [name f] of
    module [home f]. *)
Definition start (file : nat -> N) (home : nat -> nat) (name : nat -> N) : world :=
  World (fun m => LibState (Some (file m)) None) (fun f => Func (home f) (Some (name f)) None) [].
