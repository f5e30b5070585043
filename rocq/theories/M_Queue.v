(** Model of Queue<T>, templates/detachable_queue.h and detachable_queue_util.h.
    [QueueNoCopy] is the same text without copying.  Memory as in [M_List]. *)
From Verif Require Import Base S_Seq M_Dll.

(** FirstNode, LastNode, NumNodes. *)
Record queue := Queue { qhd : nat; qtl : nat; qnum : N }.
Record qworld (V : Type) := QWorld
  { qalive : nat -> bool; qnx : nat -> nat; qvl : nat -> option V; queues : nat -> queue }.
Arguments QWorld {V}. Arguments qalive {V}. Arguments qnx {V}. Arguments qvl {V}. Arguments queues {V}.

Section M.
Context {V : Type}.
Implicit Types w : qworld V.

(** detachable_queue_util.h:17-30. *)
Definition empty_queue := Queue 0 0 0.
Definition qinit : qworld V := QWorld (fun _ => false) (fun _ => 0) (fun _ => None) (fun _ => empty_queue).

Definition set_queue w i q := QWorld (qalive w) (qnx w) (qvl w) (fupd (queues w) i q).
Definition set_qnx w f := QWorld (qalive w) f (qvl w) (queues w).

(** QueueNode() at detachable_queue.h:23-25, CreateNode at detachable_queue_util.h:161-172. *)
Definition qnew w (v : option V) (a : nat) : res (qworld V) :=
  if (Nat.eqb a 0 || qalive w a)%bool then UB
  else Ok (QWorld (fupd (qalive w) a true) (fupd (qnx w) a 0) (fupd (qvl w) a v) (queues w)).
Definition qdelete w (x : nat) : res (qworld V) :=
  if qalive w x then Ok (QWorld (fupd (qalive w) x false) (qnx w) (fupd (qvl w) x None) (queues w)) else UB.

Definition qnext w x : res nat := getf (qalive w) (qnx w) x.

(** detachable_queue_util.h:113-123. *)
Definition push w i x : res (qworld V * nat) :=
  let* n := qnext w x in
  if negb (Nat.eqb n 0) then Ok (w, 0) else
  let q := queues w i in
  let* f := if negb (Nat.eqb (qtl q) 0) then setf (qalive w) (qnx w) (qtl q) x else Ok (qnx w) in
  Ok (set_queue (set_qnx w f) i (Queue (if Nat.eqb (qhd q) 0 then x else qhd q) x (qnum q + 1)), x).

(** detachable_queue_util.h:136-146. *)
Definition unshift w i x : res (qworld V * nat) :=
  let* n := qnext w x in
  if negb (Nat.eqb n 0) then Ok (w, 0) else
  let q := queues w i in
  let* f := setf (qalive w) (qnx w) x (qhd q) in
  Ok (set_queue (set_qnx w f) i (Queue x (if Nat.eqb (qtl q) 0 then x else qtl q) (qnum q + 1)), x).

(** detachable_queue_util.h:148-159. *)
Definition qshift w i : res (qworld V * nat) :=
  let q := queues w i in
  if Nat.eqb (qhd q) 0 then Ok (w, 0) else
  let x := qhd q in
  let* n := qnext w x in
  let* f := setf (qalive w) (qnx w) x 0 in
  Ok (set_queue (set_qnx w f) i (Queue n (if Nat.eqb n 0 then 0 else qtl q) (qnum q - 1)), x).

(** detachable_queue_util.h:200-211. *)
Fixpoint qempty_loop (fuel : nat) w i : res (qworld V) :=
  if Nat.eqb (qhd (queues w i)) 0 then Ok w else
  match fuel with
  | O => Fuel
  | S f => let* (w1, x) := qshift w i in let* w2 := qdelete w1 x in qempty_loop f w2 i
  end.
Definition qempty w i : res (qworld V) :=
  let* w1 := qempty_loop (N.to_nat (qnum (queues w i))) w i in
  let q := queues w1 i in Ok (set_queue w1 i (Queue (qhd q) (qtl q) 0)).

(** detachable_queue_util.h:176-198. *)
Definition qappend w i j : res (qworld V) :=
  let qj := queues w j in
  if Nat.eqb (qhd qj) 0 then Ok w else
  let qi := queues w i in
  let* w1 :=
    if negb (Nat.eqb (qtl qi) 0) then
      let* f := setf (qalive w) (qnx w) (qtl qi) (qhd qj) in
      Ok (set_queue (set_qnx w f) i (Queue (qhd qi) (qtl qj) (qnum qi)))
    else Ok (set_queue w i (Queue (qhd qj) (qtl qj) (qnum qi))) in
  let q1 := queues w1 i in
  let w2 := set_queue w1 i (Queue (qhd q1) (qtl q1) (qnum q1 + qnum (queues w1 j))) in
  Ok (set_queue w2 j empty_queue).

(** detachable_queue_util.h:68-73 (and 54-59); Push(Value) at 102-110. *)
Fixpoint qcopy_loop w i (p : nat) (fresh : list nat) : res (qworld V) :=
  if Nat.eqb p 0 then Ok w else
  match fresh with
  | [] => Fuel
  | a :: fr =>
      let* v := getf (qalive w) (qvl w) p in
      let* w0 := qnew w v a in
      let* (w1, _) := push w0 i a in
      let* n := qnext w1 p in
      qcopy_loop w1 i n fr
  end.

(** detachable_queue_util.h:62-77; the copy constructor (48-60) is the case
    of a queue that is still empty. *)
Definition qassign w i j fresh : res (qworld V) :=
  if Nat.eqb i j then Ok w else
  let* w1 := qempty w i in qcopy_loop w1 i (qhd (queues w1 j)) fresh.

(** One call; calls a queue does not offer have no meaning here. *)
Definition qexec w (c : call V) : res (qworld V * nat) :=
  match c with
  | CreateNode v a => let* w1 := qnew w (Some v) a in Ok (w1, a)
  | DeleteNode x => let* w1 := qdelete w x in Ok (w1, 0)
  | InsertBeforeV i _ v a => let* w1 := qnew w (Some v) a in push w1 i a
  | InsertBeforeN i _ x => push w i x
  | InsertAfterV i _ v a => let* w1 := qnew w (Some v) a in unshift w1 i a
  | InsertAfterN i _ x => unshift w i x
  | Shift i => qshift w i
  | Empty i => let* w1 := qempty w i in Ok (w1, 0)
  | DetachAllAndAppend i j => let* w1 := qappend w i j in Ok (w1, 0)
  | Assign i j fresh => let* w1 := qassign w i j fresh in Ok (w1, 0)
  | Detach _ _ | Remove _ _ | Pop _ => UB
  end.

Fixpoint qrun w (cs : list (call V)) : res (qworld V * list nat) :=
  match cs with
  | [] => Ok (w, [])
  | c :: r => let* (w1, x) := qexec w c in let* (w2, xs) := qrun w1 r in Ok (w2, x :: xs)
  end.

(** for (Node = First(); Node != NULL; Node = Node->Next()). *)
Fixpoint qwalk w (n : nat) (p : nat) : res (list nat) :=
  if Nat.eqb p 0 then Ok [] else
  match n with
  | O => Fuel
  | S m => let* q := qnext w p in let* r := qwalk w m q in Ok (p :: r)
  end.
End M.
