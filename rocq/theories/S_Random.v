(** Vocabulary for the statements about the random generator. *)
From Verif Require Import Base S_HashFn M_Random.

(** Exactly [c] numbers satisfy [P]. *)
Definition exactly (c : N) (P : N -> Prop) : Prop :=
  exists f : N -> N, (forall t, (t < c)%N -> P (f t)) /\
    (forall t u, (t < c)%N -> (u < c)%N -> f t = f u -> t = u) /\
    (forall x, P x -> exists t, (t < c)%N /\ f t = x).

(** A device that never delivers more than it was asked for. *)
Definition sane (size : nat) (s : device) : Prop :=
  forall i, match s i with RGot l => length l <= size /\ byteList l | RErr _ => True end.

Definition full (size : nat) (r : rres) : Prop := match r with RGot l => length l = size | RErr _ => False end.

(** From call [i] on, call [j] is the first to deliver everything, namely [l]. *)
Definition first_full (size : nat) (s : device) (i j : nat) (l : bytes) : Prop :=
  i <= j /\ s j = RGot l /\ length l = size /\ forall k, i <= k < j -> ~ full size (s k).

(** GetInteger returns [true] and [v] having made the calls before [j]. *)
Definition returns (s : device) (i : nat) (min max v : N) (j : nat) : Prop :=
  forall buf, length buf = 8 -> exists fuel, get_integer true fuel s i buf min max = Ok (true, v, j).
