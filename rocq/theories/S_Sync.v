(** What programs see of the synchronisation objects: the sequence of calls that return.
    Nothing here refers to the model. *)
From Verif Require Import Base.
Open Scope N_scope.

(** Thread [i]: a wait returned; a release returned, with the count before it. *)
Inductive sem_event := SGot (i : nat) | SFailed (i : nat) | SReleased (i : nat) (prev : N).

Fixpoint grants (tr : list sem_event) : N :=
  match tr with [] => 0 | SGot _ :: r => 1 + grants r | _ :: r => grants r end.
(** Releases that found room below the maximum. *)
Fixpoint effective (max : N) (tr : list sem_event) : N :=
  match tr with
  | [] => 0
  | SReleased _ prev :: r => (if prev <? max then 1 else 0) + effective max r
  | _ :: r => effective max r
  end.

(** What an atomic counting semaphore does: the count after a sequence of calls, [None] if the
    calls cannot have returned this way. *)
Fixpoint counting (max c : N) (tr : list sem_event) : option N :=
  match tr with
  | [] => Some c
  | SGot _ :: r => if c =? 0 then None else counting max (c - 1) r
  | SFailed _ :: r => counting max c r
  | SReleased _ prev :: r => if prev =? c then counting max (N.min max (c + 1)) r else None
  end.

(** Events: a wait returned true or false; Fire or Reset returned. *)
Inductive ev_event := EGot (i : nat) | EFailed (i : nat) | EFired (i : nat) | EReset (i : nat).

Fixpoint satisfied (tr : list ev_event) : N :=
  match tr with [] => 0 | EGot _ :: r => 1 + satisfied r | _ :: r => satisfied r end.
Fixpoint fires (tr : list ev_event) : N :=
  match tr with [] => 0 | EFired _ :: r => 1 + fires r | _ :: r => fires r end.

(** What an atomic event does: whether it is signaled after a sequence of calls. *)
Fixpoint signalling (manual sg : bool) (tr : list ev_event) : option bool :=
  match tr with
  | [] => Some sg
  | EGot _ :: r => if sg then signalling manual manual r else None
  | EFailed _ :: r => signalling manual sg r
  | EFired _ :: r => signalling manual true r
  | EReset _ :: r => if manual then signalling manual false r else None
  end.

(** Mutex objects [o] that stand for the same mutex: Lock returned true or false; Unlock returned
    true (all: every level at once) or false. *)
Inductive mx_event := MLocked (i o : nat) | MNotLocked (i o : nat) | MUnlocked (i o : nat) (all : bool) | MNotUnlocked (i o : nat).

(** How often thread i has the mutex locked through object o. *)
Definition mx_depth1 (d : N) (i o : nat) (e : mx_event) : N :=
  match e with
  | MLocked j p => if Nat.eqb i j && Nat.eqb o p then d + 1 else d
  | MUnlocked j p all => if Nat.eqb i j && Nat.eqb o p then (if all then 0 else d - 1) else d
  | _ => d
  end.
Definition mx_depth (tr : list mx_event) (i o : nat) : N := fold_left (fun d e => mx_depth1 d i o e) tr 0.

(** What an atomic recursive mutex does: who holds it and how often. *)
Fixpoint recursing (h : option (nat * nat * N)) (tr : list mx_event) : option (option (nat * nat * N)) :=
  match tr with
  | [] => Some h
  | MLocked i o :: r =>
      match h with
      | None => recursing (Some (i, o, 1)) r
      | Some (j, p, n) => if Nat.eqb i j && Nat.eqb o p then recursing (Some (j, p, n + 1)) r else None
      end
  | MNotLocked i o :: r =>
      match h with Some (j, p, _) => if Nat.eqb i j && Nat.eqb o p then None else recursing h r | None => recursing h r end
  | MUnlocked i o all :: r =>
      match h with
      | None => None
      | Some (j, p, n) => if Nat.eqb i j && Nat.eqb o p then recursing (if all || (n =? 1) then None else Some (j, p, n - 1)) r else None
      end
  | MNotUnlocked i o :: r =>
      match h with Some (j, p, _) => if Nat.eqb i j && Nat.eqb o p then None else recursing h r | None => recursing h r end
  end.

(** Reader-writer locks: ReadLock or WriteLock returned true or false, ReadUnlock or WriteUnlock was
    called, and a call of ReadUnlock took effect. *)
Inductive rw_event := RGot (i : nat) | RNot (i : nat) | WGot (i : nat) | WNot (i : nat) | RUnlock (i : nat) | RPut (i : nat) | WUnlock (i : nat).

(** How often thread i holds the lock for reading, and for writing: from the return of the lock call
    to the call of unlock. *)
Definition rw_read1 (i : nat) (d : N) (e : rw_event) : N :=
  match e with RGot j => if Nat.eqb i j then d + 1 else d | RUnlock j => if Nat.eqb i j then d - 1 else d | _ => d end.
Definition rw_write1 (i : nat) (d : N) (e : rw_event) : N :=
  match e with WGot j => if Nat.eqb i j then d + 1 else d | WUnlock j => if Nat.eqb i j then d - 1 else d | _ => d end.
Definition reading (tr : list rw_event) (i : nat) : N := fold_left (rw_read1 i) tr 0.
Definition writing (tr : list rw_event) (i : nat) : N := fold_left (rw_write1 i) tr 0.
(** Read locks granted and not given back yet. *)
Definition outstanding (tr : list rw_event) : N := fold_left (fun d e => match e with RGot _ => d + 1 | RPut _ => d - 1 | _ => d end) tr 0.
(** Unlock is called only by holders. *)
Definition disciplined (tr : list rw_event) : Prop :=
  forall tr1 e tr2, tr = tr1 ++ e :: tr2 -> match e with RUnlock i => 0 < reading tr1 i | WUnlock i => 0 < writing tr1 i | _ => True end.
