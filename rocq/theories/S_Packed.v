(** Specification of the packed ordered hash.

    [mupdate]: the map as an ordered association list.
    [pstep]: the same with the positions a caller sees (Get, GetPos, Next):
    a list of slots, a slot without entry having been unset. *)
From Verif Require Import Base S_Hash.

(** Integer keys are 64-bit signed integers. *)
Definition key_ok (k : key) : Prop := match k with KInt z => (- 2 ^ 63 <= z < 2 ^ 63)%Z | KStr _ => True end.

Inductive pcall (V : Type) : Type :=
| PSet (k : key) (v : V)          (* Set(key, value) *)
| PTouch (k : key)                (* Set(key) *)
| PUnset (k : key)                (* Unset(key) *)
| PUnsetAt (p : nat)              (* Unset(node), the node at position p *)
| POptimize
| PResize (n : nat)
| PFind (k : key)
| PGet (p : nat)
| PNext (p : nat)
| PPrev (p : nat).
Arguments PSet {V}. Arguments PTouch {V}. Arguments PUnset {V}. Arguments PUnsetAt {V}. Arguments POptimize {V}.
Arguments PResize {V}. Arguments PFind {V}. Arguments PGet {V}. Arguments PNext {V}. Arguments PPrev {V}.

(** A node is returned as its position; Next and Prev also return the new Pos. *)
Inductive pret := RNode (p : option nat) | RBool (b : bool) | RIter (p : option nat) (pos : nat).

Section S.
Context {V : Type}.
Context (dflt : V).   (* T() *)

(** ** The map *)
Definition assoc := list (key * V).
Definition mget (m : assoc) (k : key) : option V :=
  match List.find (fun e => key_eqb (fst e) k) m with Some (_, v) => Some v | None => None end.
Definition mset (m : assoc) (k : key) (v : V) : assoc :=
  if existsb (fun e => key_eqb (fst e) k) m
  then map (fun e => if key_eqb (fst e) k then (k, v) else e) m
  else m ++ [(k, v)].
Definition mremove (m : assoc) (k : key) : assoc := filter (fun e => negb (key_eqb (fst e) k)) m.

(** ** Slots *)
Definition slots := list (option (key * V)).
Definition entries (A : slots) : assoc := flat_map (fun o => match o with Some e => [e] | None => [] end) A.
Definition compact (A : slots) : slots := map Some (entries A).

Definition at_key (A : slots) (k : key) (p : nat) : Prop := exists v, nth_error A p = Some (Some (k, v)).
Definition no_key (A : slots) (k : key) : Prop := forall p, ~ at_key A k p.
Definition live (A : slots) (p : nat) : Prop := exists e, nth_error A p = Some (Some e).

(** The rules: keys are 64-bit integers or strings, fewer than 2^30 slots, and
    a node passed to Unset belongs to the array. *)
Definition plegal (A : slots) (c : pcall V) : Prop :=
  match c with
  | PSet k _ | PTouch k => key_ok k /\ (N.of_nat (length A) < 2 ^ 30)%N
  | PUnset k | PFind k => key_ok k
  | PUnsetAt p => p < length A
  | PResize n => (N.of_nat n <= 2 ^ 30)%N
  | POptimize | PGet _ | PNext _ | PPrev _ => True
  end.

Inductive pstep : slots -> pcall V -> slots -> pret -> Prop :=
| S_Set A k v p : at_key A k p -> pstep A (PSet k v) (upd A p (Some (k, v))) (RNode (Some p))
| S_SetNew A k v B : no_key A k -> B = A \/ B = compact A ->
    pstep A (PSet k v) (B ++ [Some (k, v)]) (RNode (Some (length B)))
| S_Touch A k p : at_key A k p -> pstep A (PTouch k) A (RNode (Some p))
| S_TouchNew A k B : no_key A k -> B = A \/ B = compact A ->
    pstep A (PTouch k) (B ++ [Some (k, dflt)]) (RNode (Some (length B)))
| S_Unset A k p : at_key A k p -> pstep A (PUnset k) (upd A p None) (RBool true)
| S_UnsetNone A k : no_key A k -> pstep A (PUnset k) A (RBool false)
| S_UnsetAt A p : live A p -> pstep A (PUnsetAt p) (upd A p None) (RBool true)
| S_UnsetAtNone A p : nth_error A p = Some None -> pstep A (PUnsetAt p) A (RBool false)
| S_Optimize A : pstep A POptimize (compact A) (RBool true)
| S_Resize A n : pstep A (PResize n) (compact A) (RBool true)
| S_ResizeNot A n : pstep A (PResize n) A (RBool false)
| S_Find A k p : at_key A k p -> pstep A (PFind k) A (RNode (Some p))
| S_FindNone A k : no_key A k -> pstep A (PFind k) A (RNode None)
| S_Get A p : live A p -> pstep A (PGet p) A (RNode (Some p))
| S_GetNone A p : ~ live A p -> pstep A (PGet p) A (RNode None)
| S_Next A p s q : s = (if p <? length A then S p else 0) ->
    s <= q -> live A q -> (forall r, s <= r < q -> ~ live A r) -> pstep A (PNext p) A (RIter (Some q) q)
| S_NextNone A p s : s = (if p <? length A then S p else 0) ->
    (forall r, s <= r -> ~ live A r) -> pstep A (PNext p) A (RIter None (length A))
| S_Prev A p q : q < p -> live A q -> (forall r, q < r < p -> ~ live A r) -> pstep A (PPrev p) A (RIter (Some q) q)
| S_PrevNone A p : (forall r, r < p -> ~ live A r) -> pstep A (PPrev p) A (RIter None (length A)).

(** A call sequence that obeys the rules, whatever positions the calls return. *)
Fixpoint plegal_run (A : slots) (cs : list (pcall V)) : Prop :=
  match cs with
  | [] => True
  | c :: r => plegal A c /\ forall A' x, pstep A c A' x -> plegal_run A' r
  end.

Inductive psteps : slots -> list (pcall V) -> slots -> list pret -> Prop :=
| pnil A : psteps A [] A []
| pcons A c B x cs C xs : pstep A c B x -> psteps B cs C xs -> psteps A (c :: cs) C (x :: xs).

(** Keys are in one slot only. *)
Definition distinct (A : slots) : Prop := forall k p q, at_key A k p -> at_key A k q -> p = q.

(** The effect of a call on the map.  (Unset by node: the key at that slot.) *)
Definition mupdate (A : slots) (c : pcall V) : assoc :=
  let m := entries A in
  match c with
  | PSet k v => mset m k v
  | PTouch k => match mget m k with Some _ => m | None => m ++ [(k, dflt)] end
  | PUnset k => mremove m k
  | PUnsetAt p => match nth_error A p with Some (Some (k, _)) => mremove m k | _ => m end
  | _ => m
  end.

(** The same, for histories that do not unset by node: the map after them. *)
Definition mcall (m : assoc) (c : pcall V) : assoc :=
  match c with
  | PSet k v => mset m k v
  | PTouch k => match mget m k with Some _ => m | None => m ++ [(k, dflt)] end
  | PUnset k => mremove m k
  | _ => m
  end.
Definition by_key (c : pcall V) : Prop := match c with PUnsetAt _ => False | _ => True end.

(** The positions that hold an entry, in order. *)
Definition positions (A : slots) : list nat :=
  filter (fun p => match nth p A None with Some _ => true | None => false end) (seq 0 (length A)).
End S.
