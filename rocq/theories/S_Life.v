(** What the life of synchronisation objects should look like; independent of the models. *)
From Coq Require Import List Arith Bool.
Import ListNotations.

(** ** One object: between a Create that succeeded and the next Create it can be used *)

(** [Some b]: Create, which succeeds or fails; [None]: any other call *)
Definition call := option bool.

(** what Create says, and whether the other calls get through *)
Fixpoint answers (open : bool) (l : list call) : list bool :=
  match l with
  | [] => []
  | Some b :: r => b :: answers b r
  | None :: r => open :: answers open r
  end.

(** ** Several mutexes, some of which share a name *)

(** Where the lock lives (nowhere, in the object, with a name), and who holds it through this
    object, how many times. *)
Record lock := Lock { place : option (option nat); holder : option (nat * nat) }.

Inductive event :=
  | Make (i t : nat) (name : option nat) (ok : bool)
  | Acquire (i t : nat)
  | Release (i t : nat) (all : bool)
  | Destroy (i t : nat).

Definition blank : lock := Lock None None.

Definition held_by (o : lock) (t : nat) : bool := match holder o with Some (u, _) => u =? t | None => false end.
Definition held (o : lock) : bool := match holder o with Some _ => true | None => false end.
Definition held_by_other (o : lock) (t : nat) : bool := held o && negb (held_by o t).
Definition of_name (n : nat) (o : lock) : bool := match place o with Some (Some m) => m =? n | _ => false end.

(** somebody holds the lock that this object stands for *)
Definition taken (l : list lock) (o : lock) : bool :=
  match place o with
  | Some (Some n) => existsb (fun p => of_name n p && held p) l
  | _ => held o
  end.

(** what the call on the object [o] among [l] has to answer *)
Definition answer (l : list lock) (o : lock) (e : event) : bool :=
  match e with
  | Make _ t name ok => negb (held_by_other o t) && (match name with None => true | Some _ => ok end)
  | Acquire _ t => held_by o t || negb (taken l o)
  | Release _ t _ => held_by o t
  | Destroy _ _ => true
  end.

(** what the object is after a call that gave the answer [b] *)
Definition after (o : lock) (e : event) (b : bool) : lock :=
  match e with
  | Make _ t name _ => if held_by_other o t then o else Lock (if b then Some name else None) None
  | Acquire _ t =>
      if b then Lock (place o) (match holder o with
                                | Some (u, d) => if u =? t then Some (t, S d) else Some (t, 1)
                                | None => Some (t, 1) end)
      else o
  | Release _ t all =>
      if b then Lock (place o) (match holder o with Some (u, S (S d)) => if all then None else Some (u, S d) | _ => None end)
      else o
  | Destroy _ _ => blank
  end.

Definition target (e : event) : nat :=
  match e with Make i _ _ _ | Acquire i _ | Release i _ _ | Destroy i _ => i end.

Fixpoint change (l : list lock) (i : nat) (o : lock) : list lock :=
  match l, i with
  | [], _ => []
  | _ :: t, 0 => o :: t
  | h :: t, S j => h :: change t j o
  end.

(** what an onlooker knows after the calls and their answers *)
Fixpoint watch (l : list lock) (es : list event) (bs : list bool) : list lock :=
  match es, bs with
  | e :: er, b :: br =>
      match nth_error l (target e) with
      | None => watch l er br
      | Some o => watch (change l (target e) (after o e b)) er br
      end
  | _, _ => l
  end.

(** all the calls of a history, with what each has to answer and which calls are in order *)
Fixpoint proper (fine : list lock -> lock -> event -> bool) (l : list lock) (es : list event) : Prop :=
  match es with
  | [] => True
  | e :: er =>
      match nth_error l (target e) with
      | None => proper fine l er
      | Some o => fine l o e = true /\ proper fine (change l (target e) (after o e (answer l o e))) er
      end
  end.

(** the same, going by the answers that were given *)
Fixpoint proper_seen (fine : list lock -> lock -> event -> bool) (l : list lock) (es : list event) (bs : list bool) : Prop :=
  match es, bs with
  | e :: er, b :: br =>
      match nth_error l (target e) with
      | None => proper_seen fine l er br
      | Some o => fine l o e = true /\ proper_seen fine (change l (target e) (after o e b)) er br
      end
  | _, _ => True
  end.

Fixpoint expected (l : list lock) (es : list event) : list bool :=
  match es with
  | [] => []
  | e :: er =>
      match nth_error l (target e) with
      | None => false :: expected l er
      | Some o => answer l o e :: expected (change l (target e) (after o e (answer l o e))) er
      end
  end.

(** Lock only what has been created; do not create a named mutex again while holding it; do not
    destroy a named mutex that another thread holds. *)
Definition orderly (l : list lock) (o : lock) (e : event) : bool :=
  let named := match place o with Some (Some _) => true | _ => false end in
  match e with
  | Make _ t _ _ => negb (named && held_by o t)
  | Acquire _ _ => match place o with None => false | Some _ => true end
  | Release _ _ _ => true
  | Destroy _ t => negb (named && held_by_other o t)
  end.

(** Create a mutex only when there is nothing to lose: it has not been created, or its lock is held. *)
Definition thrifty (l : list lock) (o : lock) (e : event) : bool :=
  match e with
  | Make _ t _ _ => match place o with None => true | Some _ => held o end
  | Acquire _ _ => match place o with None => false | Some _ => true end
  | _ => true
  end.
