(** Proofs about the model of FastFind / FastReplace. *)
From Verif Require Import Base M_Find S_Find.

Section Proofs.
Variable eq : N -> N -> bool.

(** Positions chosen by SetPattern are inside the pattern, and a later one implies the earlier. *)
Definition choices (size : nat) (l a b d : option nat) : Prop :=
  l = (if (1 <? size)%nat then Some (size - 1) else None) /\
  (forall x, a = Some x -> 1 < size /\ x < size) /\
  (forall x, b = Some x -> x < size /\ a <> None) /\
  (forall x, d = Some x -> x < size /\ b <> None).

Lemma mark_equal_ok n pat p : forall x2 y seen,
  x2 + n = length seen -> x2 + n + 1 <= length pat ->
  exists seen' y', mark_equal eq n pat p x2 y seen = Ok (seen', y') /\ length seen' = length seen.
Proof.
  induction n as [|n IH]; intros x2 y seen L LP; cbn [mark_equal].
  - eauto.
  - rewrite (rd_in pat (x2 + 1) 0%N) by lia. cbn [bind]. destruct (eq p (nth (x2 + 1) pat 0%N)).
    + rewrite wr_in by lia. cbn [bind].
      destruct (IH (S x2) (S y) (upd seen x2 true)) as (s' & y' & E & El);
        [rewrite upd_length; lia|lia|].
      exists s', y'. rewrite E, El, upd_length. auto.
    + apply IH; lia.
Qed.

(** The least-used positions found so far lie before [x + 1], the second before the first. *)
Definition mins (size x : nat) (m1 m2 : option nat) : Prop :=
  (forall a, m1 = Some a -> 1 <= a <= x) /\
  (forall b, m2 = Some b -> 1 <= b /\ exists a, m1 = Some a /\ b < a).

Lemma scan_pattern_ok pat size seensize : length pat = size -> seensize + 2 = size ->
  forall n x seen mn m1 m2, x + n = seensize -> length seen = seensize -> mins size x m1 m2 ->
  exists m1' m2', scan_pattern eq n pat size seensize x seen mn m1 m2 = Ok (m1', m2') /\ mins size seensize m1' m2'.
Proof.
  intros LP LS. induction n as [|n IH]; intros x seen mn m1 m2 E L [M1 M2]; cbn [scan_pattern].
  - assert (x = seensize) as -> by lia. exists m1, m2. split; auto. split; auto.
  - rewrite (rd_in seen x true) by lia. cbn [bind].
    assert (MM : mins size (S x) m1 m2).
    { split; [intros a Ha; apply M1 in Ha; lia|exact M2]. }
    destruct (nth x seen true); [apply IH; auto; lia|].
    rewrite wr_in by lia. cbn [bind]. rewrite (rd_in pat (x + 1) 0%N) by lia. cbn [bind].
    destruct (mark_equal_ok (seensize - (x + 1)) pat (nth (x + 1) pat 0%N) (x + 1) 1 (upd seen x true))
      as (s2 & y & E2 & L2); [rewrite upd_length; lia|lia|].
    rewrite E2. cbn [bind]. rewrite upd_length in L2.
    destruct (match mn with None => true | Some m => (y <=? m)%nat end).
    + apply IH; [lia|lia|]. split.
      * intros a Ha. inversion Ha. lia.
      * intros b Hb. destruct (10 <=? size)%nat.
        -- apply M1 in Hb. split; [lia|]. exists (x + 1). split; auto. lia.
        -- apply M2 in Hb as (Hb & a & Ha & Hl). apply M1 in Ha. split; auto. exists (x + 1). split; auto. lia.
    + apply IH; auto; lia.
Qed.

Lemma cast_diff_le a b : b <= a -> cast_diff a b = N.of_nat (a - b).
Proof. intros H. unfold cast_diff. now rewrite (proj2 (Nat.leb_le _ _) H). Qed.

Lemma spread_ok size m1 m2 m1' m2' : 5 <= size -> mins size (size - 2) m1 m2 ->
  spread1 size (size - 1) m1 m2 = (m1', m2') ->
  let m2'' := spread2 (size - 1) m2' in
  (forall a, m1' = Some a -> 1 <= a <= size - 2) /\
  (forall b, m2'' = Some b -> 1 <= b /\ exists a, m1' = Some a /\ b <= a).
Proof.
  intros H5 [M1 M2] E. 
  assert (A : (forall a, m1' = Some a -> 1 <= a <= size - 2) /\
              (forall b, m2' = Some b -> 1 <= b /\ exists a, m1' = Some a /\ b <= a)).
  { unfold spread1 in E. destruct m1 as [a|]; [|destruct m2 as [b|]].
    - destruct (M1 a eq_refl) as [Ha1 Ha2]. destruct m2 as [b|].
      + inversion E; subst. split; auto. intros b' Hb. destruct (M2 b' Hb) as (Hb1 & a' & Ha' & Hl).
        split; auto. exists a'. split; auto. lia.
      + destruct (Nat.leb_spec 10 size).
        * assert (HQ : (size - 1 - a) / 2 < size - 1 - a) by (apply Nat.div_lt; lia).
          set (q := (size - 1 - a) / 2) in *. clearbody q. inversion E; subst.
          split.
          -- intros c Hc. inversion Hc; subst. lia.
          -- intros c Hc. inversion Hc; subst. split; auto. eexists. split; [reflexivity|]. lia.
        * assert (HQ : (size - 1) / 2 < size - 1) by (apply Nat.div_lt; lia).
          assert (HQ1 : 1 <= (size - 1) / 2) by (apply Nat.div_le_lower_bound; lia).
          set (q := (size - 1) / 2) in *. clearbody q.
          destruct (Nat.eqb_spec a (size - 1 - 1)); inversion E; subst.
          -- split; [|discriminate]. intros c Hc. inversion Hc; subst. lia.
          -- split; auto. discriminate.
    - destruct (M2 b eq_refl) as (_ & a & Ha & _). discriminate.
    - inversion E; subst. split; discriminate. }
  destruct A as [A1 A2]. cbv zeta. split; auto. intros b Hb. unfold spread2 in Hb.
  destruct m2' as [c|]; [|discriminate]. destruct (A2 c eq_refl) as (Hc & a & Ha & Hl).
  destruct (Nat.eqb_spec c (size - 1 - 2)); inversion Hb; subst.
  - split; auto. exists a. split; auto. lia.
  - split; auto. exists a. auto.
Qed.

Lemma midpoint_ok size m1 m2 m : 5 <= size ->
  (forall a, m1 = Some a -> 1 <= a <= size - 2) ->
  (forall b, m2 = Some b -> 1 <= b /\ exists a, m1 = Some a /\ b <= a) ->
  midpoint size (size - 1) m1 m2 = Some m -> (m < N.of_nat size)%N /\ m2 <> None.
Proof.
  intros H5 A1 A2 E. unfold midpoint in E. destruct m1 as [a|]; [|discriminate].
  destruct m2 as [b|]; [|discriminate]. split; [|discriminate].
  destruct (A1 a eq_refl) as [Ha1 Ha2]. destruct (A2 b eq_refl) as (Hb & a' & Ea & Hl). inversion Ea; subst a'.
  destruct (15 <=? size)%nat; [|discriminate].
  rewrite (cast_diff_le b 0), (cast_diff_le a b), (cast_diff_le (size - 1) a) in E by lia.
  assert (HALF : forall y, (0 < y -> y / 2 < y)%N) by (intros; apply N.div_lt; lia).
  cbn [fst snd] in E.
  destruct (N.ltb_spec 1 (N.of_nat (b - 0))); cbn [fst] in E;
  match type of E with context [(?u <? N.of_nat (a - b))%N] => destruct (N.ltb_spec u (N.of_nat (a - b))) end; cbn [fst] in E;
  match type of E with context [(?u <? ?v)%N] => destruct (N.ltb_spec u v) end;
  try discriminate E;
  match type of E with Some ?t = Some _ => assert (EQ : m = t) by congruence; rewrite EQ; clear E EQ end;
  match goal with |- context [(?u / 2)%N] =>
    let q := fresh "q" in pose proof (HALF u ltac:(lia)); set (q := (u / 2)%N) in *; clearbody q end; lia.
Qed.

Lemma SetPattern_ok f pat : pat <> [] ->
  exists l a b d, SetPattern eq f pat = Ok (Finder (Some pat) l a b d (length pat - 1) None (fend f) (fcur f)) /\
    choices (length pat) l a b d.
Proof.
  intros Hn. unfold SetPattern.
  assert (Hp : 1 <= length pat) by (destruct pat; cbn; [congruence|lia]).
  destruct (Nat.eqb_spec (length pat) 0) as [|_]; [lia|].
  destruct (Nat.leb_spec 5 (length pat)) as [H5|H5].
  2:{ do 4 eexists. split; [reflexivity|]. repeat split; discriminate. }
  destruct (scan_pattern_ok pat (length pat) (length pat - 2) eq_refl ltac:(lia) (length pat - 2) 0
    (repeat false (length pat - 2)) None None None) as (m1 & m2 & E & M); [lia|apply repeat_length| |].
  { split; discriminate. }
  rewrite E. cbn [bind]. destruct (spread1 (length pat) (length pat - 1) m1 m2) as [a b'] eqn:ES.
  pose proof (spread_ok _ _ _ _ _ H5 M ES) as [A1 A2]. cbv zeta in A2.
  set (b := spread2 (length pat - 1) b') in *.
  assert (C : forall d, (forall x, d = Some x -> x < length pat /\ b <> None) ->
    choices (length pat) (if (1 <? length pat)%nat then Some (length pat - 1) else None) a b d).
  { intros d Hd. split; auto. split; [|split]; auto.
    - intros x Hx. apply A1 in Hx. lia.
    - intros x Hx. apply A2 in Hx as (Hx & a' & Ha & Hl). apply A1 in Ha as Ha'. split; [lia|congruence]. }
  destruct (midpoint (length pat) (length pat - 1) a b) as [m|] eqn:EM.
  - pose proof (midpoint_ok _ _ _ _ H5 A1 A2 EM) as [Hm Hb]. rewrite (proj2 (N.ltb_lt _ _) Hm).
    do 4 eexists. split; [reflexivity|]. apply C. intros x Hx. inversion Hx; subst. split; auto. lia.
  - do 4 eexists. split; [reflexivity|]. apply C. discriminate.
Qed.

(** ** Comparing at one position *)
Definition same (pat data : list N) (cur j : nat) : Prop := eq (nth j pat 0%N) (nth (cur + j) data 0%N) = true.

Lemma filters_ok pat data cur ps : Forall (fun p => p < length pat) ps -> cur + length pat <= length data ->
  exists b, filters eq ps pat data cur = Ok b /\ (b = true <-> Forall (same pat data cur) ps).
Proof.
  intros F L. induction ps as [|p ps IH].
  - exists true. split; auto. split; auto.
  - pose proof (Forall_inv F) as Hp. cbv beta in Hp. cbn [filters].
    rewrite (rd_in pat p 0%N), (rd_in data (cur + p) 0%N) by lia. cbn [bind].
    destruct (eq (nth p pat 0%N) (nth (cur + p) data 0%N)) eqn:Q.
    + destruct (IH (Forall_inv_tail F)) as (b & E & Hb). exists b. split; auto. rewrite Hb. split.
      * intros G. constructor; auto.
      * intros G. exact (Forall_inv_tail G).
    + exists false. split; auto. split; [discriminate|]. intros G. apply Forall_inv in G. unfold same in G. congruence.
Qed.

Lemma compare_from_ok pat data cur : cur + length pat <= length data -> forall n x, x + n <= length pat ->
  exists b, compare_from eq n pat data cur x = Ok b /\ (b = true <-> forall j, x <= j < x + n -> same pat data cur j).
Proof.
  intros L. induction n as [|n IH]; intros x Hx; cbn [compare_from].
  - exists true. split; auto. split; auto. intros; lia.
  - rewrite (rd_in pat x 0%N), (rd_in data (cur + x) 0%N) by lia. cbn [bind].
    destruct (eq (nth x pat 0%N) (nth (cur + x) data 0%N)) eqn:Q.
    + destruct (IH (S x) ltac:(lia)) as (b & E & Hb). exists b. split; auto. rewrite Hb. split; intros G j Hj.
      * destruct (Nat.eq_dec j x) as [->|]; [exact Q|]. apply G. lia.
      * apply G. lia.
    + exists false. split; auto. split; [discriminate|]. intros G. specialize (G x ltac:(lia)). unfold same in G. congruence.
Qed.

Lemma nth_slice (l : list N) i n j : j < n -> nth j (firstn n (skipn i l)) 0%N = nth (i + j) l 0%N.
Proof.
  intros H. rewrite <- (firstn_skipn i l) at 2.
  destruct (Nat.le_gt_cases (length l) i) as [L|L].
  - rewrite (skipn_all2 l) by lia. rewrite firstn_nil, app_nil_r. rewrite (nth_overflow (firstn i l)).
    + destruct j; reflexivity.
    + rewrite firstn_length. lia.
  - rewrite app_nth2; rewrite firstn_length; [|lia]. replace (i + j - Nat.min i (length l)) with j by lia.
    revert j H. generalize (skipn i l) as m. clear. intros m. revert n. induction m as [|c m IH]; intros [|n] [|j] H; cbn; auto; try lia.
    apply IH. lia.
Qed.

Lemma mem_equal_ok pat data cur n : cur + length pat <= length data -> 1 + n <= length pat ->
  (forall a b, eq a b = N.eqb a b) ->
  exists b, mem_equal pat data cur n = Ok b /\ (b = true <-> forall j, 1 <= j < 1 + n -> same pat data cur j).
Proof.
  intros L Hn HE. unfold mem_equal. rewrite !slice_in by lia. cbn [bind].
  eexists. split; [reflexivity|]. unfold list_eqb.
  destruct (list_eq_dec N.eq_dec (firstn n (skipn 1 pat)) (firstn n (skipn (cur + 1) data))) as [E|E].
  - split; auto. intros _ j Hj. unfold same. rewrite HE. apply N.eqb_eq.
    pose proof (nth_slice pat 1 n (j - 1) ltac:(lia)) as P1.
    pose proof (nth_slice data (cur + 1) n (j - 1) ltac:(lia)) as P2.
    rewrite E, P2 in P1. replace (1 + (j - 1)) with j in P1 by lia.
    replace (cur + 1 + (j - 1)) with (cur + j) in P1 by lia. congruence.
  - split; [discriminate|]. intros G. exfalso. apply E.
    apply (nth_ext _ _ 0%N 0%N).
    { rewrite !firstn_length, !skipn_length. lia. }
    rewrite firstn_length, skipn_length. intros j Hj.
    rewrite !nth_slice by lia. specialize (G (1 + j) ltac:(lia)). unfold same in G. rewrite HE in G.
    apply N.eqb_eq in G. replace (cur + 1 + j) with (cur + (1 + j)) by lia. exact G.
Qed.

Definition memok (usemem : bool) : Prop := usemem = true -> forall a b, eq a b = N.eqb a b.

Definition fok (f : finder) (pat : list N) : Prop :=
  fpat f = Some pat /\ pat <> [] /\ flastpos f = length pat - 1 /\
  choices (length pat) (flast f) (fmin f) (fmin2 f) (fmid f).

Lemma try_at_ok f pat data usemem cur : fok f pat -> memok usemem -> cur + length pat <= length data ->
  exists b, try_at eq f pat data usemem cur = Ok b /\ (b = true <-> occurs eq pat data cur).
Proof.
  intros (_ & Hn & HL & (C1 & C2 & C3 & C4)) HM L.
  assert (Hp : 1 <= length pat) by (destruct pat; cbn; [congruence|lia]).
  assert (J : forall ps r b1, Forall (fun p => p < length pat) ps -> In 0 ps -> (1 < length pat -> In (length pat - 1) ps) ->
     (exists b, r = Ok b /\ (b = true <-> forall j, 1 <= j < 1 + (flastpos f - 1) -> same pat data cur j)) ->
     filters eq ps pat data cur = b1 ->
     exists b, (let* ok := b1 in if ok then r else Ok false) = Ok b /\ (b = true <-> occurs eq pat data cur)).
  { intros ps r b1 F I0 IL (b & Er & Hb) Eb. destruct (filters_ok pat data cur ps F L) as (b2 & E2 & H2).
    rewrite <- Eb, E2. cbn [bind]. rewrite HL in Hb. destruct b2.
    - exists b. rewrite Er. split; auto. rewrite Hb. pose proof (proj1 H2 eq_refl) as G. rewrite Forall_forall in G. split.
      + intros K. split; auto. intros j Hj. destruct (Nat.eq_dec j 0) as [->|]; [exact (G 0 I0)|].
        destruct (Nat.eq_dec j (length pat - 1)) as [->|]; [apply G, IL; lia|]. apply K. lia.
      + intros [_ K] j Hj. apply K. lia.
    - exists false. split; auto. split; [discriminate|]. intros [_ K]. apply H2. apply Forall_forall. intros p Ip.
      apply K. rewrite Forall_forall in F. auto. }
  assert (INNER : exists b, (if usemem then mem_equal pat data cur (flastpos f - 1)
               else compare_from eq (flastpos f - 1) pat data cur 1) = Ok b /\
     (b = true <-> forall j, 1 <= j < 1 + (flastpos f - 1) -> same pat data cur j)).
  { destruct usemem.
    - destruct (Nat.eq_dec (length pat) 1) as [E1|E1].
      + exists true. rewrite HL, E1. cbn [Nat.sub]. unfold mem_equal. rewrite !slice_in by lia. cbn. split; auto.
        split; auto. intros; lia.
      + apply mem_equal_ok; auto. lia.
    - apply compare_from_ok; auto. lia. }
  assert (INNER2 : exists b, compare_from eq (flastpos f - 1) pat data cur 1 = Ok b /\
     (b = true <-> forall j, 1 <= j < 1 + (flastpos f - 1) -> same pat data cur j)).
  { apply compare_from_ok; auto. lia. }
  unfold try_at. cbv zeta.
  destruct (fmid f) as [d|] eqn:Ed.
  { destruct (C4 d eq_refl) as [Hd Hb]. destruct (fmin2 f) as [b|] eqn:Eb; [|congruence].
    destruct (C3 b eq_refl) as [Hb' Ha]. destruct (fmin f) as [a|] eqn:Ea; [|congruence].
    destruct (C2 a eq_refl) as [Hl Ha']. rewrite C1. rewrite (proj2 (Nat.ltb_lt _ _) Hl).
    eapply J; [| | |exact INNER|reflexivity].
    - repeat constructor; lia.
    - left; auto.
    - intros _. right; left; auto. }
  destruct (fmin2 f) as [b|] eqn:Eb.
  { destruct (C3 b eq_refl) as [Hb' Ha]. destruct (fmin f) as [a|] eqn:Ea; [|congruence].
    destruct (C2 a eq_refl) as [Hl Ha']. rewrite C1. rewrite (proj2 (Nat.ltb_lt _ _) Hl).
    eapply J; [| | |exact INNER|reflexivity].
    - repeat constructor; lia.
    - left; auto.
    - intros _. right; left; auto. }
  destruct (fmin f) as [a|] eqn:Ea.
  { destruct (C2 a eq_refl) as [Hl Ha']. rewrite C1. rewrite (proj2 (Nat.ltb_lt _ _) Hl).
    eapply J; [| | |exact INNER|reflexivity].
    - repeat constructor; lia.
    - left; auto.
    - intros _. right; left; auto. }
  rewrite C1. destruct (Nat.ltb_spec 1 (length pat)) as [Hl|Hl].
  - eapply J; [| | |exact INNER2|reflexivity].
    + repeat constructor; lia.
    + left; auto.
    + intros _. right; left; auto.
  - destruct (filters_ok pat data cur [0] ltac:(repeat constructor; lia) L) as (b & E & Hb).
    exists b. split; auto. rewrite Hb. split.
    + intros G. split; auto. intros j Hj. assert (j = 0) as -> by lia. exact (Forall_inv G).
    + intros [_ K]. repeat constructor. apply K. lia.
Qed.

Lemma find_loop_ok f pat data usemem : fok f pat -> memok usemem -> length pat <= length data ->
  forall n cur, cur + n = length data - (length pat - 1) ->
  exists c, find_loop eq n f pat data usemem cur = Ok c /\
    (c < cur + n /\ first_from eq pat data cur (Some c) \/ c = cur + n /\ first_from eq pat data cur None).
Proof.
  intros HF HM LP. assert (Hp : 1 <= length pat) by (destruct HF as (_ & Hn & _); destruct pat; cbn; [congruence|lia]).
  induction n as [|n IH]; intros cur HC; cbn [find_loop].
  - exists cur. split; auto. right. split; [lia|]. intros k Hk [Ho _]. lia.
  - destruct (try_at_ok f pat data usemem cur HF HM ltac:(lia)) as (b & E & Hb). rewrite E. cbn [bind]. destruct b.
    + exists cur. split; auto. left. split; [lia|]. split; auto. split; [tauto|]. intros; lia.
    + assert (No : ~ occurs eq pat data cur) by (intros O; apply Hb in O; discriminate).
      destruct (IH (S cur) ltac:(lia)) as (c & Ec & HH). exists c. split; auto.
      destruct HH as [(H1 & H2 & H3 & H4)|(H1 & H2)].
      * left. split; [lia|]. split; [lia|]. split; auto. intros k K1 K2.
        destruct (Nat.eq_dec k cur) as [->|]; auto. apply H4; lia.
      * right. split; [lia|]. intros k K1. destruct (Nat.eq_dec k cur) as [->|]; auto. apply H2. lia.
Qed.

Local Ltac conj_auto := repeat match goal with |- _ /\ _ => split end; try discriminate; auto.

(** ** The state of a search *)
Definition searchR (f : finder) (s : search) : Prop :=
  match s with
  | Idle => fpat f = None /\ flastpos f = 0
  | HavePattern pat => fok f pat /\ fdata f = None
  | Searching pat data c => fok f pat /\ fdata f = Some data /\ fend f = length data - (length pat - 1) /\
      length pat <= length data /\ fcur f = c
  end.

Definition exec (c : call) (f : finder) : res (finder * answer) :=
  match c with
  | CPattern pat => let* f' := SetPattern eq f pat in Ok (f', ANone)
  | CData data => Ok (SetData f data, ANone)
  | CFind m => let* (f', r) := FindNext eq f m in Ok (f', AFound r)
  | CSkip e => let '(f', r) := SkipMatch f e in Ok (f', ASkipped r)
  end.

Fixpoint run (p : list call) (f : finder) : res (finder * list answer) :=
  match p with
  | [] => Ok (f, [])
  | c :: p' => let* (f1, a) := exec c f in let* (f2, l) := run p' f1 in Ok (f2, a :: l)
  end.

Definition call_ok (c : call) : Prop := match c with CFind m => memok m | _ => True end.

Lemma fok_len f pat : fok f pat -> 1 <= length pat.
Proof. intros (_ & H & _). destruct pat; cbn; [congruence|lia]. Qed.

Lemma SetData_ok f pat data : fok f pat -> searchR (SetData f data) (resume pat data 0).
Proof.
  intros HF. pose proof (fok_len _ _ HF) as Hp. destruct HF as (P & Hn & HL & C). unfold SetData, resume, ended. rewrite HL.
  destruct (Nat.eqb_spec (length data - (length pat - 1)) 0) as [E|E];
  destruct (Nat.ltb_spec (length data) (0 + length pat)) as [L|L]; try lia; cbn.
  - unfold fok. cbn. auto.
  - unfold fok. cbn. conj_auto.
Qed.

Lemma FindNext_ok f pat data c usemem : searchR f (Searching pat data c) -> memok usemem ->
  exists f' r, FindNext eq f usemem = Ok (f', r) /\ first_from eq pat data c r /\
    searchR f' (match r with Some i => Searching pat data (S i) | None => HavePattern pat end).
Proof.
  intros (HF & HD & HE & HL & HC) HM. pose proof (fok_len _ _ HF) as Hp. pose proof HF as (P & Hn & HLp & C).
  unfold FindNext. rewrite HD, P.
  destruct (Nat.le_gt_cases (fend f) (fcur f)) as [LE|LE].
  - replace (fend f - fcur f) with 0 by lia. cbn [find_loop bind].
    rewrite (proj2 (Nat.ltb_ge _ _) LE). do 2 eexists. split; [reflexivity|]. split.
    + intros k Hk [Ho _]. lia.
    + split; [|reflexivity]. unfold fok, with_cur, no_data. cbn. auto.
  - destruct (find_loop_ok f pat data usemem HF HM HL (fend f - fcur f) (fcur f) ltac:(lia)) as (i & E & HH).
    rewrite E. cbn [bind]. destruct HH as [(H1 & H2)|(H1 & H2)].
    + rewrite (proj2 (Nat.ltb_lt _ _)) by lia. exists (with_cur f (S i)), (Some i). split; [reflexivity|].
      rewrite <- HC. split; auto. cbn. unfold fok, with_cur. cbn. conj_auto.
    + rewrite (proj2 (Nat.ltb_ge _ _)) by lia. do 2 eexists. split; [reflexivity|]. rewrite <- HC. split; auto.
      split; [|reflexivity]. unfold fok, with_cur, no_data. cbn. auto.
Qed.

Lemma SkipMatch_ok f pat data c e : searchR f (Searching pat data c) ->
  let c' := c + (length pat - 1) + e in
  exists f', SkipMatch f e = (f', Some c') /\ searchR f' (resume pat data c').
Proof.
  intros (HF & HD & HE & HL & HC) c'. pose proof (fok_len _ _ HF) as Hp. pose proof HF as (P & Hn & HLp & C).
  unfold SkipMatch. rewrite HD, P. rewrite HLp, HC. replace (c + (length pat - 1 + e)) with c' by (unfold c'; lia).
  eexists. split; [reflexivity|]. unfold resume, ended.
  destruct (Nat.leb_spec (fend f) c'); destruct (Nat.ltb_spec (length data) (c' + length pat)); try lia.
  - split; [|reflexivity]. unfold fok, no_data, with_cur. cbn. auto.
  - cbn. unfold fok. cbn. conj_auto.
Qed.

Lemma exec_ok c f s : searchR f s -> call_ok c ->
  exists f' a s', exec c f = Ok (f', a) /\ step eq s c s' a /\ searchR f' s'.
Proof.
  intros HR HM. destruct c as [pat|data|m|e]; cbn [exec].
  - destruct pat as [|p pat].
    + unfold SetPattern. cbn [length Nat.eqb]. cbn [bind]. do 3 eexists. split; [reflexivity|]. split; [constructor|].
      cbn. auto.
    + destruct (SetPattern_ok f (p :: pat) ltac:(discriminate)) as (l & a & b & d & E & C). rewrite E. cbn [bind].
      do 3 eexists. split; [reflexivity|]. split; [constructor|]. cbn. unfold fok. cbn [fpat flast fmin fmin2 fmid flastpos].
      conj_auto.
  - destruct s as [|pat|pat old c].
    + do 3 eexists. split; [reflexivity|]. split; [constructor|]. destruct HR as [P L]. unfold SetData. rewrite L.
      destruct (length data - 0 =? 0); cbn; auto.
    + do 3 eexists. split; [reflexivity|]. split; [constructor|]. apply SetData_ok. apply HR.
    + do 3 eexists. split; [reflexivity|]. split; [constructor|]. apply SetData_ok. apply HR.
  - destruct s as [|pat|pat data c].
    + destruct HR as [P L]. unfold FindNext. rewrite P. exists f, (AFound None), Idle.
      split; [destruct (fdata f); reflexivity|]. split; [constructor|]. cbn; auto.
    + destruct HR as [HF HD]. unfold FindNext. rewrite HD. exists f, (AFound None), (HavePattern pat).
      split; [reflexivity|]. split; [constructor|]. cbn; auto.
    + destruct (FindNext_ok f pat data c m HR HM) as (f' & r & E & Hr & HR'). rewrite E. cbn [bind].
      do 3 eexists. split; [reflexivity|]. split; [|exact HR']. destruct r; now constructor.
  - destruct s as [|pat|pat data c].
    + destruct HR as [P L]. unfold SkipMatch. rewrite P. exists f, (ASkipped None), Idle.
      split; [destruct (fdata f); reflexivity|]. split; [constructor|]. cbn; auto.
    + destruct HR as [HF HD]. unfold SkipMatch. rewrite HD. exists f, (ASkipped None), (HavePattern pat).
      split; [reflexivity|]. split; [constructor|]. cbn; auto.
    + destruct (SkipMatch_ok f pat data c e HR) as (f' & E & HR'). rewrite E.
      do 3 eexists. split; [reflexivity|]. split; [constructor|exact HR'].
Qed.

Lemma run_ok p : forall f s, searchR f s -> Forall call_ok p ->
  exists f' l s', run p f = Ok (f', l) /\ steps eq s p s' l /\ searchR f' s'.
Proof.
  induction p as [|c p IH]; intros f s HR F.
  - exists f, [], s. repeat split; auto. constructor.
  - destruct (exec_ok c f s HR (Forall_inv F)) as (f1 & a & s1 & E1 & S1 & R1).
    destruct (IH f1 s1 R1 (Forall_inv_tail F)) as (f2 & l & s2 & E2 & S2 & R2).
    exists f2, (a :: l), s2. cbn [run]. rewrite E1. cbn [bind]. rewrite E2. cbn [bind].
    split; auto. split; auto. econstructor; eauto.
Qed.

Lemma first_from_fun pat data c r r' : first_from eq pat data c r -> first_from eq pat data c r' -> r = r'.
Proof.
  destruct r as [i|], r' as [j|]; cbn; auto.
  - intros (H1 & H2 & H3) (K1 & K2 & K3). f_equal. destruct (Nat.lt_trichotomy i j) as [L|[L|L]]; auto; exfalso.
    + exact (K3 i H1 L H2).
    + exact (H3 j K1 L K2).
  - intros (H1 & H2 & _) K. exfalso. exact (K i H1 H2).
  - intros K (H1 & H2 & _). exfalso. exact (K j H1 H2).
Qed.

Lemma step_fun s c s1 a1 s2 a2 : step eq s c s1 a1 -> step eq s c s2 a2 -> s1 = s2 /\ a1 = a2.
Proof.
  intros H K. destruct H; inversion K; subst; auto.
  - match goal with A : first_from _ _ _ _ (Some _), B : first_from _ _ _ _ (Some _) |- _ =>
      pose proof (first_from_fun _ _ _ _ _ A B) as Q; inversion Q; auto end.
  - match goal with A : first_from _ _ _ _ (Some _), B : first_from _ _ _ _ None |- _ =>
      pose proof (first_from_fun _ _ _ _ _ A B) as Q; discriminate end.
  - match goal with A : first_from _ _ _ _ None, B : first_from _ _ _ _ (Some _) |- _ =>
      pose proof (first_from_fun _ _ _ _ _ A B) as Q; discriminate end.
Qed.
End Proofs.
