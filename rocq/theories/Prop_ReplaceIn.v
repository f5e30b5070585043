(** C119: replacing text in a string variable. *)
From Verif Require Import Base M_Find S_Find P_Replace M_ReplaceIn S_ReplaceIn P_ReplaceIn P_MixedVar Prop_Find.
Open Scope nat_scope.

(** The variable holds a block with the text, a NUL behind it, and any unused memory. *)
Definition holds (v : rvar) (text : list N) : Prop :=
  exists unused, rmem v = Some (text ++ 0%N :: unused) /\ rlen v = length text.
(** A variable that was never given a string. *)
Definition blank (v : rvar) : Prop := rmem v = None /\ rlen v = 0.

Lemma wr_at (a : list N) x z v : wr (a ++ x :: z) (length a) v = Ok (a ++ v :: z).
Proof.
  rewrite wr_split by (rewrite app_length; cbn; lia). rewrite firstn_pre by auto.
  replace (S (length a)) with (length (a ++ [x])) by (rewrite app_length; cbn; lia).
  replace (a ++ x :: z) with ((a ++ [x]) ++ z) by (now rewrite <- app_assoc). now rewrite skipn_pre.
Qed.

(** A replacement longer than the pattern: every leftmost non-overlapping occurrence is
    replaced, everything else is kept, the answer is their number; no memory outside the
    blocks is touched, however often the text must grow.  A variable without a string becomes
    an empty string. *)
Theorem C119_longer : forall uninit strict v text pat d out n,
  delivers uninit -> length pat < length d -> holds v text \/ blank v /\ text = [] ->
  replaced N.eqb pat d None text out n ->
  exists v', ReplaceData uninit strict v pat d = Ok (v', n) /\ holds v' out.
Proof.
  intros uninit strict v text pat d out n D L H R. unfold ReplaceData. rewrite (proj2 (Nat.ltb_lt _ _) L).
  assert (E : match rmem v with None => if (rlen v =? 0) then Ok [] else UB | Some m => slice m 0 (rlen v) end = Ok text).
  { destruct H as [(u & E1 & E2)|[[E1 E2] ->]].
    - rewrite E1, E2, slice_in by (rewrite app_length; lia). cbn [skipn]. now rewrite firstn_pre.
    - now rewrite E1, E2. }
  rewrite E. cbn [bind].
  destruct (C38_replaces_all N.eqb uninit (S (length text)) text pat d None 1024 1 true out n) as (rest & E2 & _ & L2); auto.
  { apply memok_eqb. }
  rewrite E2. cbn [bind]. specialize (L2 eq_refl). destruct rest as [|x [|? ?]]; try discriminate.
  rewrite wr_at. cbn [bind]. eexists. split; [reflexivity|]. exists []. auto.
Qed.

Lemma in_block uninit strict v text pat d out n :
  length d <= length pat -> holds v text -> replaced N.eqb pat d None text out n ->
  strict = false \/ apart pat d 0 text ->
  exists v', ReplaceData uninit strict v pat d = Ok (v', n) /\ holds v' out.
Proof.
  intros L (u & E1 & E2) R C. unfold ReplaceData. rewrite (proj2 (Nat.ltb_ge _ _) L), E1, E2.
  destruct (in_place_ok strict pat d L text (0%N :: u) out n R C) as (mid & E & LM). rewrite E. cbn [bind].
  assert (exists x z, mid ++ 0%N :: u = x :: z) as (x & z & EX).
  { destruct mid as [|x m]; cbn; eauto. }
  rewrite EX, wr_at. cbn [bind]. eexists. split; [reflexivity|]. exists z. auto.
Qed.

(** A replacement that is not longer is made inside the block.  If memcpy behaves like memmove
    the answer is the same. *)
Theorem C119_in_place : forall uninit v text pat d out n,
  length d <= length pat -> holds v text -> replaced N.eqb pat d None text out n ->
  exists v', ReplaceData uninit false v pat d = Ok (v', n) /\ holds v' out.
Proof. intros. apply in_block with (text := text); auto. Qed.

(** With the memcpy of the standard it is the same when no part of the text overlaps its new
    place, ... *)
Theorem C119_apart : forall uninit v text pat d out n,
  length d <= length pat -> holds v text -> replaced N.eqb pat d None text out n -> apart pat d 0 text ->
  exists v', ReplaceData uninit true v pat d = Ok (v', n) /\ holds v' out.
Proof. intros. apply in_block with (text := text); auto. Qed.

(** ... in particular when the lengths are equal (nothing moves). *)
Theorem C119_same_length : forall uninit v text pat d out n,
  length d = length pat -> holds v text -> replaced N.eqb pat d None text out n ->
  exists v', ReplaceData uninit true v pat d = Ok (v', n) /\ holds v' out.
Proof.
  intros uninit v text pat d out n L H R. apply (C119_apart uninit v text pat d out n); auto; [lia|]. clear H.
  remember None as k eqn:Ek. induction R as [k data HN|data|k data i out n Hr Hp Hf R IH]; try discriminate.
  - apply a_none; auto.
  - apply (a_one pat d 0 data i); auto. replace (0 + (length pat - length d)) with 0 by lia. apply IH. now rewrite Ek.
Qed.

(** REFUTED: in every other case memcpy is called with regions that overlap, which is
    undefined. *)
Theorem C119_overlap_refuted : forall uninit v text pat d,
  length d <= length pat -> holds v text -> ~ apart pat d 0 text ->
  ReplaceData uninit true v pat d = UB.
Proof.
  intros uninit v text pat d L (u & E1 & E2) C. unfold ReplaceData. rewrite (proj2 (Nat.ltb_ge _ _) L), E1, E2.
  rewrite in_place_ub; auto.
Qed.

(** One occurrence before more text than it shrinks is enough. *)
Theorem C119_one_is_enough_refuted : forall uninit v pat d tail,
  length d < length pat -> length pat - length d < length tail ->
  (forall i, 0 < i -> ~ occurs N.eqb pat (pat ++ tail) i) -> holds v (pat ++ tail) ->
  ReplaceData uninit true v pat d = UB.
Proof.
  intros uninit v pat d tail L1 L2 N H. apply C119_overlap_refuted with (text := pat ++ tail); auto; [lia|].
  assert (Hp : pat <> []) by (intros ->; cbn in L1; lia).
  assert (F : first_from N.eqb pat (pat ++ tail) 0 (Some 0)).
  { split; auto. split; [|intros; lia]. split; [rewrite app_length; lia|]. intros j Hj. rewrite Nat.add_0_l, app_nth1 by auto. apply N.eqb_refl. }
  intros A. inversion A as [g0 d0 HN HG|g0 d0 i Hp' Hf HG HA]; subst.
  - destruct HN as [HN|HN]; [contradiction|]. apply (HN 0); auto. apply F.
  - pose proof (P_Find.first_from_fun N.eqb _ _ _ _ _ F Hf) as Q. inversion Q; subst. cbn [Nat.add] in HA.
    rewrite skipn_pre in HA by auto. inversion HA as [g1 d1 HN1 HG1|g1 d1 i Hp1 Hf1 HG1 HA1]; subst; [lia|].
    destruct Hf1 as (_ & Ho & _). apply (N (length pat + i)); [lia|].
    apply occurs_skip; [rewrite app_length; lia|]. now rewrite skipn_pre.
Qed.

(** REFUTED: without a string, a replacement that is not longer is undefined (the terminator
    is written through NULL), although there is nothing to replace. *)
Theorem C119_blank_refuted : forall uninit strict v pat d, delivers uninit ->
  length d <= length pat -> blank v -> ReplaceData uninit strict v pat d = UB.
Proof.
  intros uninit strict v pat d D L [E1 E2]. unfold ReplaceData. rewrite (proj2 (Nat.ltb_ge _ _) L), E1.
  destruct (C39_alloc_variants_safe N.eqb uninit 1 [] pat d None 1024 1 true) as (b & s & n & E & _); auto.
  - apply memok_eqb.
  - rewrite E. reflexivity.
Qed.

(** ReplaceStr is ReplaceData with the two strings. *)
Theorem C119_strings : forall uninit strict v a b ra rb,
  Forall (fun c => c <> 0%N) a -> Forall (fun c => c <> 0%N) b ->
  ReplaceStr uninit strict v (a ++ 0%N :: ra) (b ++ 0%N :: rb) = ReplaceData uninit strict v a b.
Proof.
  intros uninit strict v a b ra rb Ha Hb. unfold ReplaceStr. rewrite (cstr_app a ra Ha). cbn [bind].
  rewrite (cstr_app b rb Hb). reflexivity.
Qed.

(** "a.b.c" with "." to "::" grows; "12, 345, 6" with ", " to " " moves "345" and "6"
    down by one and two places, which overlaps; "x--y--z" with "--" to "+" moves single letters,
    which does not. *)
Example C119_ex :
  ReplaceStr zeros true (RVar (Some [97;46;98;46;99;0]%N) 5) [46;0]%N [58;58;0]%N =
    Ok (RVar (Some [97;58;58;98;58;58;99;0]%N) 7, 2) /\
  ReplaceStr zeros true (RVar (Some [49;50;44;32;51;52;53;44;32;54;0]%N) 10) [44;32;0]%N [32;0]%N = UB /\
  ReplaceStr zeros false (RVar (Some [49;50;44;32;51;52;53;44;32;54;0]%N) 10) [44;32;0]%N [32;0]%N =
    Ok (RVar (Some [49;50;32;51;52;53;32;54;0;54;0]%N) 8, 2) /\
  ReplaceStr zeros true (RVar (Some [120;45;45;121;45;45;122;0]%N) 7) [45;45;0]%N [43;0]%N =
    Ok (RVar (Some [120;43;121;43;122;0;122;0]%N) 5, 2) /\
  ReplaceStr zeros false (RVar None 0) [45;0]%N [43;0]%N = UB /\
  ReplaceStr zeros false (RVar None 0) [45;0]%N [43;43;0]%N = Ok (RVar (Some [0]%N) 0, 0).
Proof. vm_compute. repeat split; reflexivity. Qed.

Print Assumptions C119_longer.
Print Assumptions C119_in_place.
Print Assumptions C119_apart.
Print Assumptions C119_same_length.
Print Assumptions C119_overlap_refuted.
Print Assumptions C119_one_is_enough_refuted.
Print Assumptions C119_blank_refuted.
Print Assumptions C119_strings.
