(** Files and two names, for copying among other processes.  Nothing here refers to the model. *)
From Verif Require Import Base S_Attr.

(** A file, and what two names stand for at a moment, links followed: the name to copy from and the
    name to copy to.  [None]: nothing has this name. *)
Record file := Fl { attr : attrs; data : bytes }.
Record fs := FS { src_is : option nat; dst_is : option nat; node : nat -> option file }.

(** What others do. *)
Definition others := fs -> fs -> Prop.
(** They leave the contents of all files alone; names, and attributes, they may change. *)
Definition no_writes (o : others) : Prop := forall f f' i n, o f f' -> node f i = Some n -> exists n', node f' i = Some n' /\ data n' = data n.
(** They leave the file [i] alone and do not give it the destination's name. *)
Definition apart (i : nat) (o : others) : Prop := forall f f', o f f' -> node f' i = node f i /\ (dst_is f <> Some i -> dst_is f' <> Some i).
(** They change what one of the names stands for, and nothing else. *)
Definition move_dst : others := fun f f' => src_is f' = src_is f /\ node f' = node f.
Definition move_src : others := fun f f' => dst_is f' = dst_is f /\ node f' = node f.
Definition nobody : others := fun _ _ => False.
