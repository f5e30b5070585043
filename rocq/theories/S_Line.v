(** Specification of reading lines.  Nothing here refers to the model. *)
From Verif Require Import Base.
Open Scope N_scope.

(** The first line of a text and what follows it.  A line ends at LF, CR LF, CR or the end. *)
Fixpoint take_line (s : bytes) : bytes * bytes :=
  match s with
  | [] => ([], [])
  | c :: r =>
      if c =? 10 then ([], r)
      else if c =? 13 then ([], match r with x :: r' => if x =? 10 then r' else r | [] => [] end)
      else let (l, rest) := take_line r in (c :: l, rest)
  end.

(** NUL is shown as a space. *)
Definition shown (s : bytes) : bytes := map (fun c => if c =? 0 then 32 else c) s.

(** What [n] calls deliver: at the end, empty texts. *)
Fixpoint some_lines (n : nat) (s : bytes) : list bytes :=
  match n with O => [] | S m => shown (fst (take_line s)) :: some_lines m (snd (take_line s)) end.
