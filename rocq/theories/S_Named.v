(** Specification of opening named objects. *)
From Verif Require Import Base.
Open Scope N_scope.

(** Process i finished initialising the contents, returned from opening with success, began to
    close, or did something undefined. *)
Inductive nm_event := NInited (i : nat) | NReturned (i : nat) | NClosed (i : nat) | NUndefined (i : nat).

(** The contents are initialised once, and nobody returns before that. *)
Fixpoint proper (done : bool) (tr : list nm_event) : bool :=
  match tr with
  | [] => true
  | NInited _ :: r => negb done && proper true r
  | NReturned _ :: r => done && proper done r
  | NClosed _ :: r => proper done r
  | NUndefined _ :: _ => false
  end.

(** How many processes have the object open. *)
Definition opens (tr : list nm_event) : N := fold_left (fun d e => match e with NReturned _ => d + 1 | NClosed _ => d - 1 | _ => d end) tr 0.
Definition returned (tr : list nm_event) : bool := existsb (fun e => match e with NReturned _ => true | _ => false end) tr.

(** Once somebody has opened it, somebody has it open. *)
Definition kept (tr : list nm_event) : Prop := forall tr1 tr2, tr = tr1 ++ tr2 -> returned tr1 = true -> 0 < opens tr1.
