(** Specification vocabulary for linked containers: a container is a finite
    sequence of node addresses (0 is NULL), and every call is an operation on
    such sequences.  Nothing here mentions links. *)
From Verif Require Import Base.

(** A total function changed at one point. *)
Definition fupd {A} (f : nat -> A) (x : nat) (v : A) : nat -> A :=
  fun y => if Nat.eqb y x then v else f y.

(** The sequence with [x] put immediately before [pos]; [pos = 0] means at the end. *)
Fixpoint put_before (pos x : nat) (xs : list nat) : list nat :=
  match xs with
  | [] => [x]
  | y :: r => if Nat.eqb y pos then x :: y :: r else y :: put_before pos x r
  end.

(** The sequence with [x] put immediately after [pos]. *)
Fixpoint put_after_in (pos x : nat) (xs : list nat) : list nat :=
  match xs with
  | [] => []
  | y :: r => if Nat.eqb y pos then y :: x :: r else y :: put_after_in pos x r
  end.

(** [pos = 0] means at the start. *)
Definition put_after (pos x : nat) (xs : list nat) : list nat :=
  if Nat.eqb pos 0 then x :: xs else put_after_in pos x xs.

(** The sequence without [x]. *)
Definition without (x : nat) (xs : list nat) : list nat :=
  filter (fun y => negb (Nat.eqb y x)) xs.

(** Calls on a family of containers, named by numbers.  Calls that allocate
    carry the address the allocator returned (any address not in use). *)
Inductive call (V : Type) : Type :=
| CreateNode (v : V) (a : nat)
| DeleteNode (x : nat)
| InsertBeforeV (i pos : nat) (v : V) (a : nat)
| InsertBeforeN (i pos x : nat)
| InsertAfterV (i pos : nat) (v : V) (a : nat)
| InsertAfterN (i pos x : nat)
| Detach (i x : nat)
| Remove (i x : nat)
| Pop (i : nat)
| Shift (i : nat)
| Empty (i : nat)
| DetachAllAndAppend (i j : nat)
| Assign (i j : nat) (fresh : list nat).
Arguments CreateNode {V}. Arguments DeleteNode {V}. Arguments InsertBeforeV {V}.
Arguments InsertBeforeN {V}. Arguments InsertAfterV {V}. Arguments InsertAfterN {V}.
Arguments Detach {V}. Arguments Remove {V}. Arguments Pop {V}. Arguments Shift {V}.
Arguments Empty {V}. Arguments DetachAllAndAppend {V}. Arguments Assign {V}.

(** Abstract state: the sequence of every container and the value of every
    existing node ([None]: no node at this address). *)
Record abs (V : Type) : Type := Abs { seqs : nat -> list nat; value : nat -> option V }.
Arguments Abs {V}. Arguments seqs {V}. Arguments value {V}.

Section Spec.
Context {V : Type}.
Implicit Types A : abs V.

Definition exists_node A x := value A x <> None.
Definition attached A x := exists i, In x (seqs A i).
Definition free_address A x := x <> 0 /\ value A x = None.
(** A position in container [i]: NULL or one of its nodes. *)
Definition position A i pos := pos = 0 \/ In pos (seqs A i).

Definition drop_all (xs : list nat) (f : nat -> option V) : nat -> option V :=
  fun y => if existsb (Nat.eqb y) xs then None else f y.

(** Values for a list of fresh nodes. *)
Fixpoint give (xs : list nat) (vs : list (option V)) (f : nat -> option V) : nat -> option V :=
  match xs, vs with
  | x :: xr, v :: vr => give xr vr (fupd f x v)
  | _, _ => f
  end.

(** [astep A c A' r]: the call [c] obeys the documented rules in state [A]; it
    must lead to [A'] and return [r] (node address, or 1/0 for true/false). *)
Inductive astep : abs V -> call V -> abs V -> nat -> Prop :=
| SCreate A v a : free_address A a ->
    astep A (CreateNode v a) (Abs (seqs A) (fupd (value A) a (Some v))) a
| SDelete A x : exists_node A x -> ~ attached A x ->
    astep A (DeleteNode x) (Abs (seqs A) (fupd (value A) x None)) 0
| SInsertBeforeV A i pos v a : free_address A a -> position A i pos ->
    astep A (InsertBeforeV i pos v a)
      (Abs (fupd (seqs A) i (put_before pos a (seqs A i))) (fupd (value A) a (Some v))) a
| SInsertBeforeN A i pos x : exists_node A x -> ~ attached A x -> position A i pos ->
    astep A (InsertBeforeN i pos x)
      (Abs (fupd (seqs A) i (put_before pos x (seqs A i))) (value A)) x
| SInsertBeforeRefused A i j pos x : In x (seqs A j) -> 2 <= length (seqs A j) ->
    astep A (InsertBeforeN i pos x) A 0
| SInsertAfterV A i pos v a : free_address A a -> position A i pos ->
    astep A (InsertAfterV i pos v a)
      (Abs (fupd (seqs A) i (put_after pos a (seqs A i))) (fupd (value A) a (Some v))) a
| SInsertAfterN A i pos x : exists_node A x -> ~ attached A x -> position A i pos ->
    astep A (InsertAfterN i pos x)
      (Abs (fupd (seqs A) i (put_after pos x (seqs A i))) (value A)) x
| SInsertAfterRefused A i j pos x : In x (seqs A j) -> 2 <= length (seqs A j) ->
    astep A (InsertAfterN i pos x) A 0
| SDetach A i x : In x (seqs A i) ->
    astep A (Detach i x) (Abs (fupd (seqs A) i (without x (seqs A i))) (value A)) 1
| SDetachNull A i : astep A (Detach i 0) A 0
| SRemove A i x : In x (seqs A i) ->
    astep A (Remove i x)
      (Abs (fupd (seqs A) i (without x (seqs A i))) (fupd (value A) x None)) 1
| SRemoveNull A i : astep A (Remove i 0) A 0
| SPop A i xs x : seqs A i = xs ++ [x] ->
    astep A (Pop i) (Abs (fupd (seqs A) i xs) (value A)) x
| SPopEmpty A i : seqs A i = [] -> astep A (Pop i) A 0
| SShift A i xs x : seqs A i = x :: xs ->
    astep A (Shift i) (Abs (fupd (seqs A) i xs) (value A)) x
| SShiftEmpty A i : seqs A i = [] -> astep A (Shift i) A 0
| SEmpty A i :
    astep A (Empty i) (Abs (fupd (seqs A) i []) (drop_all (seqs A i) (value A))) 0
| SAppend A i j : i <> j ->
    astep A (DetachAllAndAppend i j)
      (Abs (fupd (fupd (seqs A) i (seqs A i ++ seqs A j)) j []) (value A)) 0
| SAssign A i j fresh : i <> j -> length fresh = length (seqs A j) -> NoDup fresh ->
    (forall x, In x fresh -> x <> 0 /\ drop_all (seqs A i) (value A) x = None) ->
    astep A (Assign i j fresh)
      (Abs (fupd (seqs A) i fresh)
           (give fresh (map (value A) (seqs A j)) (drop_all (seqs A i) (value A)))) 0
| SAssignSelf A i fresh : astep A (Assign i i fresh) A 0.

(** Histories. *)
Inductive asteps : abs V -> list (call V) -> abs V -> list nat -> Prop :=
| anil A : asteps A [] A []
| acons A c B r cs C rs : astep A c B r -> asteps B cs C rs -> asteps A (c :: cs) C (r :: rs).

(** Before anything happened: no nodes, all containers empty. *)
Definition start : abs V := Abs (fun _ => []) (fun _ => None).
End Spec.
