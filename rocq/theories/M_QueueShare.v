(** QueueNoCopy<T>, templates/detachable_queue_util.h:41-46: the constructor
    declared private takes a const Queue<T> &, which is another class, and not
    a const QueueNoCopy<T> &.  So the class has no declared copy constructor
    and C++ supplies the one that copies the members (an assignment operator
    that is declared does not prevent that).  The class and the memory are
    those of [M_Queue]. *)
From Verif Require Import Base S_Seq M_Dll M_Queue.

Section M.
Context {V : Type}.

(** QueueNoCopy<T> j(i): FirstNode, LastNode and NumNodes (lines 218-219) are copied. *)
Definition copy_members (w : qworld V) (i j : nat) : qworld V := set_queue w j (queues w i).

(** ~QueueNoCopy at detachable_queue_util.h:23-30. *)
Definition destroy (w : qworld V) (i : nat) : res (qworld V) := qempty w i.
End M.
