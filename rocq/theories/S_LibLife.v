(** Programs that use shared libraries: what they do, and the rule they obey.
    A program makes and destroys library objects, makes function objects for
    them, calls through these, and calls functions once by name.  The rest of
    the process opens and closes libraries itself. *)
From Verif Require Import Base.

(** Library objects and function objects have numbers in the order they were
    made.  [ok], [sym]: whether the system finds the library and the function
    if it is asked to. *)
Inductive lop :=
| NewLib (file : nat)
| NewFun (m name : nat)
| CallFun (f : nat) (ok sym : bool)
| CallFunVoid (f : nat) (ok sym : bool)
| CallOnce (file name : nat) (ok sym : bool)
| CallOnceVoid (file name : nat) (ok sym : bool)
| DestroyLib (m : nat)
| OtherOpen (file : nat)
| OtherClose (file : nat).

(** Which library objects live, and the library object of each function object. *)
Record users := Users { live : list bool; maker : list nat; others : nat -> nat }.
Definition users0 : users := Users [] [] (fun _ => 0).
Definition bump (f : nat -> nat) (k : nat) : nat -> nat := fun x => if Nat.eqb x k then S (f x) else f x.
Definition drop1 (f : nat -> nat) (k : nat) : nat -> nat := fun x => if Nat.eqb x k then f x - 1 else f x.

Definition uafter (u : users) (o : lop) : users :=
  match o with
  | NewLib _ => Users (live u ++ [true]) (maker u) (others u)
  | NewFun m _ => Users (live u) (maker u ++ [m]) (others u)
  | DestroyLib m => Users (upd (live u) m false) (maker u) (others u)
  | OtherOpen k => Users (live u) (maker u) (bump (others u) k)
  | OtherClose k => Users (live u) (maker u) (drop1 (others u) k)
  | _ => u
  end.

(** The rule: objects are used while they live, and a function object only
    while its library object lives. *)
Definition ulegal (u : users) (o : lop) : Prop :=
  match o with
  | NewFun m _ | DestroyLib m => nth_error (live u) m = Some true
  | CallFun f _ _ | CallFunVoid f _ _ => exists m, nth_error (maker u) f = Some m /\ nth_error (live u) m = Some true
  | OtherClose k => 0 < others u k
  | _ => True
  end.

Fixpoint legal (u : users) (os : list lop) : Prop :=
  match os with [] => True | o :: r => ulegal u o /\ legal (uafter u o) r end.
Fixpoint uend (u : users) (os : list lop) : users :=
  match os with [] => u | o :: r => uend (uafter u o) r end.

(** How often the program opened the library through the calls by name, which
    leave it open. *)
Fixpoint once (k : nat) (os : list lop) : nat :=
  match os with
  | [] => 0
  | (CallOnce file _ true _ | CallOnceVoid file _ true _) :: r => (if Nat.eqb file k then 1 else 0) + once k r
  | _ :: r => once k r
  end.
