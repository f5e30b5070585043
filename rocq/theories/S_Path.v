(** Specification of file names and paths.  Nothing here refers to the model. *)
From Verif Require Import Base.
Open Scope N_scope.

(** Printable ASCII other than the characters refused on any platform: star, question mark,
    double quote, less, greater, bar. *)
Definition plain (c : N) : Prop :=
  32 <= c < 127 /\ c <> 42 /\ c <> 63 /\ c <> 34 /\ c <> 60 /\ c <> 62 /\ c <> 124.

(** Backslashes count as slashes. *)
Definition unix (s : bytes) : bytes := map (fun c => if c =? 92 then 47 else c) s.

(** The components of a path: the texts between slashes. *)
Fixpoint split (s : bytes) : list bytes :=
  match s with
  | [] => [[]]
  | c :: r => if c =? 47 then [] :: split r
              else match split r with [] => [[c]] | h :: t => (c :: h) :: t end
  end.

(** Walking from the directory [st] (components from the root) along components. *)
Fixpoint resolve (st : list bytes) (cs : list bytes) : list bytes :=
  match cs with
  | [] => st
  | c :: r =>
      if list_eq_dec N.eq_dec c [] then resolve st r
      else if list_eq_dec N.eq_dec c [46] then resolve st r
      else if list_eq_dec N.eq_dec c [46; 46] then resolve (removelast st) r
      else resolve (st ++ [c]) r
  end.

Definition render (st : list bytes) : bytes := flat_map (fun c => 47 :: c) st.

Definition absolute (s : bytes) : Prop := exists r, s = 47 :: r.

(** The path [name] denotes seen from the directory [base]. *)
Definition place (base name : bytes) : list bytes :=
  match name with
  | 47 :: _ => resolve [] (split name)
  | _ => resolve (resolve [] (split base)) (split name)
  end.

(** Neither "." nor "..". *)
Definition proper (c : bytes) : Prop := c <> [46] /\ c <> [46; 46].

(** Bytes a file name may have: no control or wildcard characters. *)
Definition permitted (c : N) : Prop :=
  32 <= c < 256 /\ c <> 127 /\ c <> 42 /\ c <> 63 /\ c <> 34 /\ c <> 60 /\ c <> 62 /\ c <> 124.

(** [parts f p w]: [p] is the directory part of [f] with its last slash, [w] the file name. *)
Definition parts (f p w : bytes) : Prop := f = p ++ w /\ (p = [] \/ exists v, p = v ++ [47]) /\ ~ In 47 w.
(** [ext] is what follows the stem from the first dot on, or nothing. *)
Definition first_ext (w stem ext : bytes) : Prop := w = stem ++ ext /\ ~ In 46 stem /\ (ext = [] \/ exists r, ext = 46 :: r).
(** The same from the last dot on. *)
Definition last_ext (w stem ext : bytes) : Prop :=
  w = stem ++ ext /\ ((ext = [] /\ ~ In 46 w) \/ exists r, ext = 46 :: r /\ ~ In 46 r).
