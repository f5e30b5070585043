(** Specification of searching and replacing in sequences of elements, for any comparison [eq]
    of a pattern element with a data element.  Nothing here refers to the model. *)
From Verif Require Import Base.

Section Spec.
Variable eq : N -> N -> bool.

(** The pattern occurs in the data at position [i]. *)
Definition occurs (pat data : list N) (i : nat) : Prop :=
  i + length pat <= length data /\
  forall j, j < length pat -> eq (nth j pat 0%N) (nth (i + j) data 0%N) = true.

(** [r] is the first occurrence at or after [c], [None] when there is none. *)
Definition first_from (pat data : list N) (c : nat) (r : option nat) : Prop :=
  match r with
  | Some i => c <= i /\ occurs pat data i /\ forall k, c <= k -> k < i -> ~ occurs pat data k
  | None => forall k, c <= k -> ~ occurs pat data k
  end.

(** What a searcher is asked for: a pattern, then data, then the position to search from. *)
Inductive call := CPattern (pat : list N) | CData (data : list N) | CFind (usemem : bool) | CSkip (extra : nat).
Inductive answer := ANone | AFound (r : option nat) | ASkipped (r : option nat).

(** The state of a search: nothing to search, or the pattern, the data and the position from
    which the next search starts. *)
Inductive search := Idle | HavePattern (pat : list N) | Searching (pat data : list N) (from : nat).

(** Setting a pattern forgets the data.  Data without a pattern, or after an empty pattern,
    is never searched.  A failed search, or skipping past the last place where the pattern
    could be, ends the search. *)
Definition ended (pat data : list N) (c : nat) : bool := (length data <? c + length pat)%nat.
Definition resume (pat data : list N) (c : nat) : search :=
  if ended pat data c then HavePattern pat else Searching pat data c.

Inductive step : search -> call -> search -> answer -> Prop :=
| st_pattern_empty s : step s (CPattern []) Idle ANone
| st_pattern s p pat : step s (CPattern (p :: pat)) (HavePattern (p :: pat)) ANone
| st_data_idle data : step Idle (CData data) Idle ANone
| st_data pat data : step (HavePattern pat) (CData data) (resume pat data 0) ANone
| st_data_again pat old c data : step (Searching pat old c) (CData data) (resume pat data 0) ANone
| st_find_idle m : step Idle (CFind m) Idle (AFound None)
| st_find_nodata m pat : step (HavePattern pat) (CFind m) (HavePattern pat) (AFound None)
| st_find m pat data c i : first_from pat data c (Some i) ->
    step (Searching pat data c) (CFind m) (Searching pat data (S i)) (AFound (Some i))
| st_find_end m pat data c : first_from pat data c None ->
    step (Searching pat data c) (CFind m) (HavePattern pat) (AFound None)
| st_skip_idle e : step Idle (CSkip e) Idle (ASkipped None)
| st_skip_nodata e pat : step (HavePattern pat) (CSkip e) (HavePattern pat) (ASkipped None)
| st_skip e pat data c : let c' := c + (length pat - 1) + e in
    step (Searching pat data c) (CSkip e) (resume pat data c') (ASkipped (Some c')).

Inductive steps : search -> list call -> search -> list answer -> Prop :=
| ss_nil s : steps s [] s []
| ss_cons s c s1 a p s2 l : step s c s1 a -> steps s1 p s2 l -> steps s (c :: p) s2 (a :: l).

(** [replaced k data out n]: the leftmost non-overlapping occurrences, at most [k] of them
    ([None]: all), are replaced by [rep] and everything else is kept; [n] were replaced. *)
Variable pat rep : list N.
Definition room (k : option nat) : Prop := match k with Some 0 => False | _ => True end.
Definition less (k : option nat) : option nat := match k with Some (S n) => Some n | k => k end.

Inductive replaced : option nat -> list N -> list N -> nat -> Prop :=
| r_none k data : (pat = [] \/ first_from pat data 0 None) -> replaced k data data 0
| r_full data : replaced (Some 0) data data 0
| r_one k data i out n : room k -> pat <> [] -> first_from pat data 0 (Some i) ->
    replaced (less k) (skipn (i + length pat) data) out n ->
    replaced k data (firstn i data ++ rep ++ out) (S n).

(** The same, except that once [k] replacements are made everything from the next occurrence
    on is dropped. *)
Inductive replaced_cut : option nat -> list N -> list N -> nat -> Prop :=
| c_none k data : (pat = [] \/ first_from pat data 0 None) -> replaced_cut k data data 0
| c_full data i : pat <> [] -> first_from pat data 0 (Some i) -> replaced_cut (Some 0) data (firstn i data) 0
| c_one k data i out n : room k -> pat <> [] -> first_from pat data 0 (Some i) ->
    replaced_cut (less k) (skipn (i + length pat) data) out n ->
    replaced_cut k data (firstn i data ++ rep ++ out) (S n).
End Spec.
