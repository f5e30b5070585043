(** Named objects and processes that fork: what happened, and who has the object open. *)
From Verif Require Import Base.
Open Scope N_scope.

(** Create in process i made the object (its contents are new); Create in process i found it; process i
    closed it; process i made process j; process i ended without closing it. *)
Inductive nf_event := NfMade (i : nat) | NfFound (i : nat) | NfClosed (i : nat) | NfFork (i j : nat) | NfEnded (i : nat).

(** Who has it open.  A new process has open what the one had that made it. *)
Fixpoint nf_open (rtr : list nf_event) (i : nat) : bool :=   (* the last event first *)
  match rtr with
  | [] => false
  | NfMade j :: r => if Nat.eqb i j then true else nf_open r i
  | NfFound j :: r => if Nat.eqb i j then true else nf_open r i
  | NfClosed j :: r => if Nat.eqb i j then false else nf_open r i
  | NfFork j k :: r => if Nat.eqb i k then nf_open r j else nf_open r i
  | NfEnded j :: r => if Nat.eqb i j then false else nf_open r i
  end.

(** Only processes that do not have it open make others. *)
Fixpoint nf_free (rtr : list nf_event) : Prop :=
  match rtr with [] => True | NfFork i _ :: r => nf_open r i = false /\ nf_free r | _ :: r => nf_free r end.
