(** Specification of replacing text inside its own memory.  Nothing here refers to the model. *)
From Verif Require Import Base S_Find.

Section Spec.
Variable pat rep : list N.

(** The parts of the text between the occurrences move down by [gap] places, which grows by
    the difference of the lengths at every occurrence.  [apart gap data]: every part is either
    not moved or no longer than the distance it is moved, so that its old and new places do
    not overlap. *)
Inductive apart : nat -> list N -> Prop :=
| a_none gap data : (pat = [] \/ first_from N.eqb pat data 0 None) -> gap = 0 \/ length data <= gap ->
    apart gap data
| a_one gap data i : pat <> [] -> first_from N.eqb pat data 0 (Some i) -> gap = 0 \/ i <= gap ->
    apart (gap + (length pat - length rep)) (skipn (i + length pat) data) -> apart gap data.
End Spec.
