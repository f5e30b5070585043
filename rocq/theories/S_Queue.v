(** Specification of the queue: the sequence calls of [S_Seq] a queue offers.
    Push is insertion at the end, Unshift at the start. *)
From Verif Require Import Base S_Seq.

Section Spec.
Context {V : Type}.

Definition queue_call (c : call V) : Prop :=
  match c with
  | CreateNode _ _ | DeleteNode _ | Shift _ | Empty _ | DetachAllAndAppend _ _ | Assign _ _ _ => True
  | InsertBeforeV _ pos _ _ | InsertBeforeN _ pos _ | InsertAfterV _ pos _ _ | InsertAfterN _ pos _ => pos = 0
  | Detach _ _ | Remove _ _ | Pop _ => False
  end.

Definition inserts_node (c : call V) (x : nat) : Prop :=
  match c with InsertBeforeN _ _ y | InsertAfterN _ _ y => y = x | _ => False end.

(** Calls obeying the documented rule act as on sequences; in addition a node
    that still has a successor is refused. *)
Inductive qstep : abs V -> call V -> abs V -> nat -> Prop :=
| QStep A c A' r : astep A c A' r -> queue_call c ->
    (forall x, inserts_node c x -> ~ attached A x) -> qstep A c A' r
| QPushRefused A i j l x y r : seqs A j = l ++ x :: y :: r -> qstep A (InsertBeforeN i 0 x) A 0
| QUnshiftRefused A i j l x y r : seqs A j = l ++ x :: y :: r -> qstep A (InsertAfterN i 0 x) A 0.

Inductive qsteps : abs V -> list (call V) -> abs V -> list nat -> Prop :=
| qnil A : qsteps A [] A []
| qcons A c B r cs C rs : qstep A c B r -> qsteps B cs C rs -> qsteps A (c :: cs) C (r :: rs).
End Spec.
