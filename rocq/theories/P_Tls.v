(** Proofs about the thread-local allocator. *)
From Verif Require Import Base S_Seq S_Tls M_Tls P_Dll P_List.
Local Arguments Nat.pow : simpl never.
Local Arguments Nat.max : simpl never.
Local Arguments NormalizeBitPosition : simpl never.
Local Arguments N.modulo : simpl never.

Lemma norm_from_ok steps : forall pos size, size <= 2 ^ (pos + steps - 1) -> 0 < steps ->
  exists p, norm_from steps pos size = Ok p /\ pos <= p /\ size <= 2 ^ p /\
    (p = pos \/ 2 ^ (p - 1) < size) /\ p < pos + steps.
Proof.
  induction steps as [|s IH]; intros pos size H H0; [lia|]. cbn [norm_from].
  destruct (Nat.ltb_spec (2 ^ pos) size) as [E|E].
  - destruct s as [|s]; [replace (pos + 1 - 1) with pos in H by lia; lia|].
    destruct (IH (S pos) size) as (p & E1 & E2 & E3 & E4 & E5).
    + replace (S pos + S s - 1) with (pos + S (S s) - 1) by lia; exact H.
    + lia.
    + exists p. repeat split; auto; try lia.
      destruct E4 as [->|E4]; right; [now replace (S pos - 1) with pos by lia|exact E4].
  - exists pos. repeat split; auto; lia.
Qed.

Lemma norm_ok n : n <= 2 ^ 30 ->
  exists p, NormalizeBitPosition n = Ok p /\ 3 <= p <= 30 /\ n <= 2 ^ p /\ (p = 3 \/ 2 ^ (p - 1) < n).
Proof.
  intros H. destruct (norm_from_ok 61 3 n) as (p & E1 & E2 & E3 & E4 & E5).
  - transitivity (2 ^ 30); [exact H|]. apply Nat.pow_le_mono_r; lia.
  - lia.
  - exists p. split; [exact E1|]. split; [|split; auto]. split; auto.
    destruct E4 as [->|E4]; [lia|].
    destruct (Nat.le_gt_cases p 30); auto.
    assert (2 ^ 30 <= 2 ^ (p - 1)) by (apply Nat.pow_le_mono_r; lia). lia.
Qed.

Lemma norm_pow p : 3 <= p <= 30 -> NormalizeBitPosition (2 ^ p) = Ok p.
Proof.
  intros H. destruct (norm_ok (2 ^ p)) as (p' & E1 & E2 & E3 & E4).
  - apply Nat.pow_le_mono_r; lia.
  - rewrite E1. f_equal.
    destruct (Nat.lt_trichotomy p p') as [L|[L|L]]; auto.
    + destruct E4 as [->|E4]; [lia|].
      assert (2 ^ p <= 2 ^ (p' - 1)) by (apply Nat.pow_le_mono_r; lia). lia.
    + assert (2 ^ p' < 2 ^ p) by (apply Nat.pow_lt_mono_r; lia). lia.
Qed.

Section P.
Variables (node : nat) (junk : nat -> nat -> N) (avail moves : nat -> bool).
Variables (bits : nat) (strict : bool).

Lemma fresh_length id n : length (fresh junk id n) = n.
Proof. unfold fresh. now rewrite map_length, seq_length. Qed.

(** A block of the client: contents [c], size class [h]. *)
Definition block (b c : bytes) (h : nat) : Prop :=
  nth_error b 0 = Some (N.of_nat h) /\ 3 <= h <= 30 /\ 0 < length c /\
  1 + length c <= length b /\ firstn (length c) (skipn 1 b) = c /\ 1 + 2 ^ h <= length b /\
  (h < bits -> length c <= 2 ^ h /\ node <= length b /\ length b = Nat.max (2 ^ h + 1) node) /\
  (strict = true -> length c <= 2 ^ h).

Record inv (t : tls) (s : view) (q : list (list nat)) : Prop := Inv {
  i_main : main t = Some q;
  i_bits : length q = bits;
  i_live : forall p c, live s p = Some c -> exists b h, heap t p = Some b /\ block b c h;
  i_raw : forall p c, raw s p = Some c -> heap t p = Some c;
  i_dis : forall p, live s p <> None -> raw s p = None;
  i_q : forall i p, In p (nth i q []) -> unused s p /\
    exists b, heap t p = Some b /\ length b = Nat.max (2 ^ i + 1) node;
  i_nd : forall i, NoDup (nth i q []);
  i_one : forall i j p, In p (nth i q []) -> In p (nth j q []) -> i = j;
  i_req : forall p, req t <= p -> heap t p = None;
  i_own : forall p, heap t p <> None -> live s p <> None \/ raw s p <> None \/ exists i, In p (nth i q [])
}.

Lemma nth_upd {A} (l : list A) i j v d : i < length l ->
  nth j (upd l i v) d = if Nat.eqb j i then v else nth j l d.
Proof.
  intros H. destruct (Nat.eqb_spec j i) as [->|Hne].
  - apply nth_error_nth. now apply upd_nth_same.
  - revert i j H Hne. induction l as [|x l IH]; intros [|i] [|j] H Hne; cbn in *; try lia; auto.
    apply IH; lia.
Qed.

Lemma live_not_q t s q p c i : inv t s q -> live s p = Some c -> ~ In p (nth i q []).
Proof. intros I L H. destruct (i_q _ _ _ I _ _ H) as [[E _] _]. congruence. Qed.

Lemma fresh_unused t s q p : inv t s q -> req t <= p -> unused s p.
Proof.
  intros I H. pose proof (i_req _ _ _ I _ H) as E. split.
  - destruct (live s p) as [c|] eqn:L; auto. destruct (i_live _ _ _ I _ _ L) as (b & h & E1 & _). congruence.
  - destruct (raw s p) as [c|] eqn:L; auto. apply (i_raw _ _ _ I) in L. congruence.
Qed.

(** The header is written and the client takes the block. *)
Definition tagged (b : bytes) (pos : nat) : bytes := upd b 0 (N.of_nat pos).

Lemma tag_ok t p pos b : heap t p = Some b -> 0 < length b -> pos <= 30 ->
  tag t p pos = Ok (Tls (main t) (fupd (heap t) p (Some (tagged b pos))) (req t), Some p).
Proof.
  intros E L H. unfold tag, store. rewrite E, wr_in by auto. cbn [bind].
  rewrite N.mod_small by lia. reflexivity.
Qed.

Lemma tagged_block b pos n : n <= 2 ^ pos -> 0 < n -> 3 <= pos <= 30 -> 1 + 2 ^ pos <= length b ->
  (pos < bits -> length b = Nat.max (2 ^ pos + 1) node) ->
  block (tagged b pos) (firstn n (skipn 1 b)) pos.
Proof.
  intros H H0 H1 H2 H3. unfold block, tagged. rewrite upd_length.
  assert (L : length (firstn n (skipn 1 b)) = n) by (rewrite firstn_length, skipn_length; lia).
  rewrite L. split; [apply upd_nth_same; lia|].
  split; [lia|]. split; [lia|]. split; [lia|]. split.
  - destruct b as [|x b]; reflexivity.
  - split; [auto|]. split; [|auto]. intros B. rewrite (H3 B). lia.
Qed.

Ltac un := unfold fupd in *; repeat match goal with
  | |- context [Nat.eqb ?a ?b] => destruct (Nat.eqb_spec a b); subst
  | H : context [Nat.eqb ?a ?b] |- _ => destruct (Nat.eqb_spec a b); subst
  end.

(** A fresh block is given to the client. *)
Lemma give_fresh t s q b c h : inv t s q -> block b c h ->
  inv (Tls (main t) (fupd (heap t) (req t) (Some b)) (S (req t)))
      (View (fupd (live s) (req t) (Some c)) (raw s)) q.
Proof.
  intros I B. destruct (fresh_unused _ _ _ _ I (le_n _)) as [U1 U2].
  pose proof (i_req _ _ _ I _ (le_n _)) as U3.
  constructor; cbn [main heap req live raw].
  - apply I.
  - apply I.
  - intros p c' H. un; [injection H as <-; eauto|]. apply (i_live _ _ _ I); auto.
  - intros p c' H. un; [congruence|]. apply (i_raw _ _ _ I); auto.
  - intros p H. un; auto. apply (i_dis _ _ _ I); auto.
  - intros i p H. destruct (i_q _ _ _ I _ _ H) as [[V1 V2] (b' & V3 & V4)].
    unfold unused; cbn [live raw]. un; [congruence|]. split; [now split|]. eauto.
  - apply I.
  - apply I.
  - intros p H. un; [lia|]. apply (i_req _ _ _ I). lia.
  - intros p H. un; [left; discriminate|]. apply (i_own _ _ _ I); auto.
Qed.

Lemma NoDup_tl {A} (x : A) l : NoDup (x :: l) -> NoDup l /\ ~ In x l.
Proof. intros H. inversion H; auto. Qed.

(** A cached block is given to the client. *)
Lemma give_cached t s q b c pos p rest : inv t s q -> block b c pos -> pos < length q ->
  nth pos q [] = p :: rest ->
  inv (Tls (Some (upd q pos rest)) (fupd (heap t) p (Some b)) (req t))
      (View (fupd (live s) p (Some c)) (raw s)) (upd q pos rest).
Proof.
  intros I B L E.
  assert (IP : In p (nth pos q [])) by (rewrite E; now left).
  destruct (i_q _ _ _ I _ _ IP) as [[U1 U2] (b0 & U3 & U4)].
  destruct (NoDup_tl p rest) as [N1 N2]; [rewrite <- E; apply (i_nd _ _ _ I)|].
  assert (S1 : forall i x, In x (nth i (upd q pos rest) []) -> In x (nth i q []) /\ x <> p).
  { intros i x H. rewrite nth_upd in H by auto. destruct (Nat.eqb_spec i pos) as [->|Ni].
    - rewrite E. split; [now right|intros ->; auto].
    - split; auto. intros ->. apply Ni. apply (i_one _ _ _ I _ _ _ H IP). }
  constructor; cbn [main heap req live raw].
  - reflexivity.
  - rewrite upd_length. apply I.
  - intros x c' H. un; [injection H as <-; eauto|]. apply (i_live _ _ _ I); auto.
  - intros x c' H. un; [congruence|]. apply (i_raw _ _ _ I); auto.
  - intros x H. un; auto. apply (i_dis _ _ _ I); auto.
  - intros i x H. apply S1 in H. destruct H as [H Hne].
    destruct (i_q _ _ _ I _ _ H) as [[V1 V2] (b' & V3 & V4)].
    unfold unused; cbn [live raw]. un; [congruence|]. split; [now split|]. eauto.
  - intros i. rewrite nth_upd by auto. destruct (Nat.eqb_spec i pos); auto. apply (i_nd _ _ _ I).
  - intros i j x H1 H2. apply S1 in H1. apply S1 in H2. apply (i_one _ _ _ I i j x); tauto.
  - intros x H. un; [|apply (i_req _ _ _ I); auto].
    rewrite (i_req _ _ _ I _ H) in U3. discriminate.
  - intros x H. un; [left; discriminate|].
    destruct (i_own _ _ _ I x H) as [V|[V|[i V]]]; auto. right; right. exists i.
    rewrite nth_upd by auto. destruct (Nat.eqb_spec i pos) as [->|]; auto.
    rewrite E in V. destruct V; congruence.
Qed.

(** The client's block becomes a block of nobody. *)
Lemma take_back t s q p c : inv t s q -> live s p = Some c ->
  inv (Tls (main t) (fupd (heap t) p None) (req t)) (View (fupd (live s) p None) (raw s)) q.
Proof.
  intros I L. assert (R : raw s p = None) by (apply (i_dis _ _ _ I); congruence).
  constructor; cbn [main heap req live raw].
  - apply I.
  - apply I.
  - intros x c' H. un; [discriminate|]. apply (i_live _ _ _ I); auto.
  - intros x c' H. un; [congruence|]. apply (i_raw _ _ _ I); auto.
  - intros x H. un; auto. apply (i_dis _ _ _ I); auto.
  - intros i x H. destruct (i_q _ _ _ I _ _ H) as [[V1 V2] (b' & V3 & V4)].
    unfold unused; cbn [live raw]. un; [congruence|]. split; [now split|]. eauto.
  - apply I.
  - apply I.
  - intros x H. un; auto. apply (i_req _ _ _ I). lia.
  - intros x H. un; [congruence|]. destruct (i_own _ _ _ I x H) as [V|[V|V]]; auto.
Qed.

Lemma cache_it t s q p c b pos : inv t s q -> live s p = Some c -> pos < length q ->
  length b = Nat.max (2 ^ pos + 1) node ->
  inv (Tls (Some (upd q pos (nth pos q [] ++ [p]))) (fupd (heap t) p (Some b)) (req t))
      (View (fupd (live s) p None) (raw s)) (upd q pos (nth pos q [] ++ [p])).
Proof.
  intros I L Lq Hb. assert (R : raw s p = None) by (apply (i_dis _ _ _ I); congruence).
  set (q' := upd q pos (nth pos q [] ++ [p])).
  assert (S1 : forall i x, In x (nth i q' []) -> In x (nth i q []) /\ x <> p \/ x = p /\ i = pos).
  { intros i x H. unfold q' in H. rewrite nth_upd in H by auto. destruct (Nat.eqb_spec i pos) as [->|Ni].
    - rewrite in_app_iff in H. destruct H as [H|[<-|[]]]; [|now right].
      left. split; auto. intros ->. eapply live_not_q; eauto.
    - left. split; auto. intros ->. eapply live_not_q; eauto. }
  constructor; cbn [main heap req live raw].
  - reflexivity.
  - unfold q'. rewrite upd_length. apply I.
  - intros x c' H. un; [discriminate|]. apply (i_live _ _ _ I); auto.
  - intros x c' H. un; [congruence|]. apply (i_raw _ _ _ I); auto.
  - intros x H. un; auto. apply (i_dis _ _ _ I); auto.
  - intros i x H. apply S1 in H. unfold unused; cbn [live raw]. destruct H as [[H Hne]|[-> ->]].
    + destruct (i_q _ _ _ I _ _ H) as [[V1 V2] (b' & V3 & V4)].
      un; [congruence|]. split; [now split|]. eauto.
    + un; [|congruence]. split; [now split|]. eauto.
  - intros i. unfold q'. rewrite nth_upd by auto. destruct (Nat.eqb_spec i pos) as [->|]; [|apply (i_nd _ _ _ I)].
    apply (NoDup_Add (a := p) (l := nth pos q [])).
    + rewrite <- (app_nil_r (nth pos q [])) at 1. apply Add_app.
    + split; [apply (i_nd _ _ _ I)|eapply live_not_q; eauto].
  - intros i j x H1 H2. apply S1 in H1. apply S1 in H2.
    destruct H1 as [[H1 N1]|[-> ->]], H2 as [[H2 N2]|[E2 ->]]; try congruence.
    apply (i_one _ _ _ I i j x); auto.
  - intros x H. un; [|apply (i_req _ _ _ I); auto].
    destruct (i_live _ _ _ I _ _ L) as (b' & h & V & _). rewrite (i_req _ _ _ I _ H) in V. discriminate.
  - intros x H. un.
    + right; right. exists pos. unfold q'. rewrite nth_upd, Nat.eqb_refl by auto. apply in_app_iff. right; now left.
    + destruct (i_own _ _ _ I x H) as [V|[V|[i V]]]; auto. right; right. exists i.
      unfold q'. rewrite nth_upd by auto. destruct (Nat.eqb_spec i pos) as [->|]; auto.
      apply in_app_iff; auto.
Qed.

Lemma step_malloc_sys t s q : inv t s q -> forall b, 
  inv (Tls (main t) (fupd (heap t) (req t) (Some b)) (S (req t)))
      (View (live s) (fupd (raw s) (req t) (Some b))) q.
Proof.
  intros I b. destruct (fresh_unused _ _ _ _ I (le_n _)) as [U1 U2].
  pose proof (i_req _ _ _ I _ (le_n _)) as U3.
  constructor; cbn [main heap req live raw].
  - apply I.
  - apply I.
  - intros p c' H. un; [congruence|]. apply (i_live _ _ _ I); auto.
  - intros p c' H. un; [congruence|]. apply (i_raw _ _ _ I); auto.
  - intros p H. un; [congruence|]. apply (i_dis _ _ _ I); auto.
  - intros i p H. destruct (i_q _ _ _ I _ _ H) as [[V1 V2] (b' & V3 & V4)].
    unfold unused; cbn [live raw]. un; [congruence|]. split; [now split|]. eauto.
  - apply I.
  - apply I.
  - intros p H. un; [lia|]. apply (i_req _ _ _ I). lia.
  - intros p H. un; [right; left; discriminate|]. apply (i_own _ _ _ I); auto.
Qed.

(** A block of the client changes (same size class). *)
Lemma change t s q p c b' c' h : inv t s q -> live s p = Some c -> block b' c' h ->
  inv (Tls (main t) (fupd (heap t) p (Some b')) (req t)) (View (fupd (live s) p (Some c')) (raw s)) q.
Proof.
  intros I L B. assert (R : raw s p = None) by (apply (i_dis _ _ _ I); congruence).
  constructor; cbn [main heap req live raw].
  - apply I.
  - apply I.
  - intros x d H. un; [injection H as <-; eauto|]. apply (i_live _ _ _ I); auto.
  - intros x d H. un; [congruence|]. apply (i_raw _ _ _ I); auto.
  - intros x H. un; auto. apply (i_dis _ _ _ I); auto.
  - intros i x H. destruct (i_q _ _ _ I _ _ H) as [[V1 V2] (b0 & V3 & V4)].
    unfold unused; cbn [live raw]. un; [congruence|]. split; [now split|]. eauto.
  - apply I.
  - apply I.
  - intros x H. un; [|apply (i_req _ _ _ I); auto].
    destruct (i_live _ _ _ I _ _ L) as (b0 & h0 & V & _). rewrite (i_req _ _ _ I _ H) in V. discriminate.
  - intros x H. un; [left; discriminate|]. apply (i_own _ _ _ I); auto.
Qed.

(** *** free *)
Lemma free_ok t s q p c k : inv t s q -> live s p = Some c ->
  exists t' q', free node junk t (Some p) k = Ok t' /\ inv t' (View (fupd (live s) p None) (raw s)) q' /\
    req t' = req t /\ (forall x, x <> p -> heap t' x = heap t x).
Proof.
  intros I L. destruct (i_live _ _ _ I _ _ L) as (b & h & E & B).
  unfold free. rewrite (i_main _ _ _ I). unfold load. rewrite E. unfold rd.
  destruct B as (B0 & B1 & B2 & B3 & B4 & B5 & B6 & B7). rewrite B0. cbn [bind]. rewrite Nat2N.id.
  assert (F : sys_free t p = Ok (Tls (main t) (fupd (heap t) p None) (req t))) by (unfold sys_free; now rewrite E).
  destruct (Nat.leb_spec (length q) h) as [G|G]; [|destruct k]; cbn [negb].
  - rewrite F. exists (Tls (main t) (fupd (heap t) p None) (req t)), q. split; [reflexivity|].
    split; [eapply take_back; eauto|]. split; [reflexivity|]. intros x H. cbn [heap]. now apply fupd_other.
  - rewrite (i_bits _ _ _ I) in G. destruct (B6 G) as (C1 & C2 & C3).
    unfold blit. rewrite fresh_length. rewrite (proj2 (Nat.leb_le _ _)) by lia. cbn [bind].
    eexists _, _. split; [reflexivity|]. split; [eapply cache_it; eauto|split].
    + rewrite (i_bits _ _ _ I). exact G.
    + cbn [firstn app]. rewrite app_length, fresh_length, skipn_length. lia.
    + reflexivity.
    + intros x H. cbn [heap]. now apply fupd_other.
  - rewrite F. exists (Tls (main t) (fupd (heap t) p None) (req t)), q. split; [reflexivity|].
    split; [eapply take_back; eauto|]. split; [reflexivity|]. intros x H. cbn [heap]. now apply fupd_other.
Qed.

(** *** malloc *)
Lemma malloc_ok t s q n : avail (req t) = true -> inv t s q -> 0 < n -> n <= 2 ^ 30 ->
  exists t' q' p b c pos, malloc node junk avail t n = Ok (t', Some p) /\
    NormalizeBitPosition n = Ok pos /\
    unused s p /\ length c = n /\ heap t' p = Some b /\ block b c pos /\
    (forall x, x <> p -> heap t' x = heap t x) /\
    inv t' (View (fupd (live s) p (Some c)) (raw s)) q'.
Proof.
  intros Avail I H0 H. unfold malloc. rewrite (proj2 (Nat.eqb_neq n 0)) by lia.
  rewrite (i_main _ _ _ I). destruct (norm_ok n H) as (pos & -> & P1 & P2 & P3). cbn [bind].
  assert (LF : forall b : bytes, 1 + 2 ^ pos <= length b -> length (firstn n (skipn 1 b)) = n)
    by (intros b Hb; rewrite firstn_length, skipn_length; lia).
  destruct (Nat.leb_spec (length q) pos) as [G|G].
  - unfold sys_malloc. rewrite Avail.
    set (b := fresh junk (req t) (2 ^ pos + 1)).
    assert (Lb : length b = 2 ^ pos + 1) by apply fresh_length.
    rewrite (tag_ok _ _ _ b); [|cbn [heap]; apply fupd_same|lia|lia].
    cbn [main heap req].
    assert (B : block (tagged b pos) (firstn n (skipn 1 b)) pos).
    { apply tagged_block; try lia. intros C. rewrite (i_bits _ _ _ I) in G. lia. }
    pose proof (give_fresh _ _ _ _ _ _ I B) as I'.
    eexists _, q, (req t), (tagged b pos), (firstn n (skipn 1 b)), pos. split; [reflexivity|]. split; [reflexivity|].
    split; [eapply fresh_unused; eauto|]. split; [apply LF; lia|].
    split; [cbn [heap]; apply fupd_same|]. split; [exact B|].
    split.
    + intros x Hx. cbn [heap]. now rewrite !fupd_other.
    + destruct I'. cbn [main heap req live raw] in *.
      constructor; cbn [main heap req live raw]; auto.
      * intros p c E. destruct (i_live0 p c E) as (b1 & h1 & V & W). exists b1, h1. split; auto. revert V. un; auto.
      * intros p c E. specialize (i_raw0 p c E). revert i_raw0. un; auto.
      * intros i p E. destruct (i_q0 i p E) as [U (b1 & V & W)]. split; auto. exists b1. split; auto. revert V. un; auto.
      * intros p E. specialize (i_req0 p E). revert i_req0. un; auto.
      * intros p E. apply i_own0. revert E. un; auto.
  - destruct (nth pos q []) as [|p rest] eqn:Eq.
    + unfold sys_malloc. rewrite Avail.
      set (b := fresh junk (req t) (Nat.max (2 ^ pos + 1) node)).
      assert (Lb : length b = Nat.max (2 ^ pos + 1) node) by apply fresh_length.
      rewrite (tag_ok _ _ _ b); [|cbn [heap]; apply fupd_same|lia|lia].
      cbn [main heap req].
      assert (B : block (tagged b pos) (firstn n (skipn 1 b)) pos).
      { apply tagged_block; try lia. }
      pose proof (give_fresh _ _ _ _ _ _ I B) as I'.
      eexists _, q, (req t), (tagged b pos), (firstn n (skipn 1 b)), pos. split; [reflexivity|]. split; [reflexivity|].
      split; [eapply fresh_unused; eauto|]. split; [apply LF; lia|].
      split; [cbn [heap]; apply fupd_same|]. split; [exact B|].
      split.
      * intros x Hx. cbn [heap]. now rewrite !fupd_other.
      * destruct I'. cbn [main heap req live raw] in *.
        constructor; cbn [main heap req live raw]; auto.
        -- intros p c E. destruct (i_live0 p c E) as (b1 & h1 & V & W). exists b1, h1. split; auto. revert V. un; auto.
        -- intros p c E. specialize (i_raw0 p c E). revert i_raw0. un; auto.
        -- intros i p E. destruct (i_q0 i p E) as [U (b1 & V & W)]. split; auto. exists b1. split; auto. revert V. un; auto.
        -- intros p E. specialize (i_req0 p E). revert i_req0. un; auto.
        -- intros p E. apply i_own0. revert E. un; auto.
    + assert (IP : In p (nth pos q [])) by (rewrite Eq; now left).
      destruct (i_q _ _ _ I _ _ IP) as [U (b & U3 & U4)].
      rewrite (tag_ok _ _ _ b); [|exact U3|lia|lia]. cbn [main heap req].
      assert (B : block (tagged b pos) (firstn n (skipn 1 b)) pos) by (apply tagged_block; try lia; auto).
      eexists _, _, p, (tagged b pos), (firstn n (skipn 1 b)), pos. split; [reflexivity|]. split; [reflexivity|].
      split; [exact U|]. split; [apply LF; lia|].
      split; [cbn [heap]; apply fupd_same|]. split; [exact B|].
      split; [intros x Hx; cbn [heap]; now rewrite fupd_other|].
      eapply give_cached; eauto.
Qed.

Lemma inv_ext t s s' q : inv t s q -> (forall p, live s' p = live s p) -> (forall p, raw s' p = raw s p) ->
  inv t s' q.
Proof.
  intros I E1 E2. destruct I. constructor; auto.
  - intros p c. rewrite E1. auto.
  - intros p c. rewrite E2. auto.
  - intros p. rewrite E1, E2. auto.
  - intros i p H. unfold unused. rewrite E1, E2. apply (i_q0 i p H).
  - intros p H. rewrite E1, E2. auto.
Qed.

Lemma shl1_ok pos : pos <= 30 -> shl1 pos = Ok (2 ^ pos).
Proof. intros H. unfold shl1. now rewrite (proj2 (Nat.ltb_lt pos 31)) by lia. Qed.

Lemma block_shrink b c h n : block b c h -> 0 < n -> n <= 2 ^ h ->
  block b (firstn n (skipn 1 b)) h.
Proof.
  intros (B0 & B1 & B2 & B3 & B4 & B5 & B6 & B7) H0 H.
  assert (L : length (firstn n (skipn 1 b)) = n) by (rewrite firstn_length, skipn_length; lia).
  unfold block. rewrite L. split; [exact B0|]. split; [exact B1|]. split; [exact H0|]. split; [lia|].
  split; [reflexivity|]. split; [exact B5|]. split; [intros G; destruct (B6 G); tauto|auto].
Qed.

Lemma block_prefix b c h n : block b c h ->
  firstn (Nat.min (length c) n) (firstn n (skipn 1 b)) = firstn (Nat.min (length c) n) c.
Proof.
  intros (_ & _ & _ & B3 & B4 & _). rewrite <- B4 at 3. rewrite !firstn_firstn. f_equal. lia.
Qed.

Lemma copy_prefix (b c r : bytes) n m : firstn (length c) (skipn 1 b) = c -> length c <= m ->
  firstn (Nat.min (length c) n) (firstn n (firstn m (skipn 1 b) ++ r)) = firstn (Nat.min (length c) n) c.
Proof.
  intros E H. rewrite firstn_firstn. replace (Nat.min (Nat.min (length c) n) n) with (Nat.min (length c) n) by lia.
  assert (L : length c <= length (firstn m (skipn 1 b))).
  { rewrite <- E. rewrite !firstn_length. lia. }
  rewrite firstn_app. replace (Nat.min (length c) n - length (firstn m (skipn 1 b))) with 0 by lia.
  cbn [firstn]. rewrite app_nil_r. rewrite <- E at 3. rewrite !firstn_firstn. f_equal. lia.
Qed.

Lemma realloc_ok t s q p c n k : avail (req t) = true -> inv t s q -> live s p = Some c -> 0 < n -> n <= 2 ^ 30 ->
  (strict = true -> n <= 2 ^ (bits - 1)) ->
  exists t' q' p' c', realloc node junk avail moves t (Some p) n k = Ok (t', Some p') /\
    (p' = p \/ unused s p') /\ length c' = n /\
    firstn (Nat.min (length c) n) c' = firstn (Nat.min (length c) n) c /\
    inv t' (View (fupd (fupd (live s) p None) p' (Some c')) (raw s)) q'.
Proof.
  intros Avail I L H0 H ST. destruct (i_live _ _ _ I _ _ L) as (b & h & E & B).
  pose proof B as (B0 & B1 & B2 & B3 & B4 & B5 & B6 & B7).
  unfold realloc. rewrite (proj2 (Nat.eqb_neq n 0)) by lia.
  destruct (norm_ok n H) as (pos & -> & P1 & P2 & P3). cbn [bind].
  unfold load at 1. rewrite E. unfold rd. rewrite B0. cbn [bind]. rewrite Nat2N.id.
  destruct (Nat.leb_spec pos h) as [G|G].
  - (* fits *)
    assert (n <= 2 ^ h) by (transitivity (2 ^ pos); [auto|apply Nat.pow_le_mono_r; lia]).
    exists t, q, p, (firstn n (skipn 1 b)). split; [reflexivity|]. split; [now left|].
    split; [rewrite firstn_length, skipn_length; lia|]. split; [eapply block_prefix; eauto|].
    pose proof (change _ _ _ _ _ _ _ _ I L (block_shrink _ _ _ _ B H0 H1)) as I'.
    destruct I'. constructor; cbn [main heap req live raw] in *; auto.
    + intros x d Hx. destruct (i_live0 x d) as (b1 & h1 & V & W); [revert Hx; un; auto|].
      exists b1, h1. split; auto. revert V. un; congruence.
    + intros x d Hx. specialize (i_raw0 x d Hx). revert i_raw0. un; congruence.
    + intros x Hx. apply i_dis0. revert Hx. un; auto.
    + intros i x Hx. destruct (i_q0 i x Hx) as [U (b1 & V & W)].
      split; [revert U; unfold unused; cbn [live raw]; un; auto|]. exists b1. split; auto. revert V. un; congruence.
    + intros x Hx. specialize (i_req0 x Hx). revert i_req0. un; congruence.
    + intros x Hx. destruct (i_own0 x) as [V|[V|V]]; auto; [revert Hx; un; congruence|].
      left. revert V. un; auto.
  - rewrite (i_main _ _ _ I).
    destruct ((length q <=? pos) && (length q <=? h)) eqn:G2.
    + (* both uncached *)
      apply andb_prop in G2. destruct G2 as [G2 G3]. apply Nat.leb_le in G2, G3.
      assert (NS : strict = false).
      { destruct strict; auto. exfalso. specialize (ST eq_refl).
        rewrite (i_bits _ _ _ I) in *. destruct P3 as [->|P3]; [lia|].
        assert (2 ^ (bits - 1) <= 2 ^ (pos - 1)) by (apply Nat.pow_le_mono_r; lia). lia. }
      assert (P4 : 2 ^ h < 2 ^ pos) by (apply Nat.pow_lt_mono_r; lia).
      unfold sys_realloc. rewrite E. rewrite Avail.
      set (b' := firstn (1 + 2 ^ pos) b ++ skipn (length b) (fresh junk (req t) (1 + 2 ^ pos))).
      assert (Lb : length b' = 1 + 2 ^ pos).
      { unfold b'. rewrite app_length, firstn_length, skipn_length, fresh_length. lia. }
      set (c' := firstn n (skipn 1 b')).
      assert (Lc : length c' = n) by (unfold c'; rewrite firstn_length, skipn_length; lia).
      assert (B' : block b' c' h).
      { unfold block. rewrite Lc, Lb. split.
        - destruct b as [|x b]; [discriminate|]. exact B0.
        - split; [auto|]. split; [auto|]. split; [lia|]. split; [reflexivity|]. split; [lia|]. split.
          + rewrite (i_bits _ _ _ I) in G3. lia.
          + congruence. }
      assert (Pc : firstn (Nat.min (length c) n) c' = firstn (Nat.min (length c) n) c).
      { unfold c'. rewrite firstn_firstn. replace (Nat.min (Nat.min (length c) n) n) with (Nat.min (length c) n) by lia.
        rewrite <- B4 at 3. rewrite firstn_firstn.
        replace (Nat.min (Nat.min (length c) n) (length c)) with (Nat.min (length c) n) by lia.
        set (m := Nat.min (length c) n). assert (m <= length c /\ m <= n) by lia. clearbody m.
        unfold b'. rewrite !skipn_app, firstn_app.
        rewrite skipn_length, firstn_length.
        replace (m - (Nat.min (1 + 2 ^ pos) (length b) - 1)) with 0 by lia. cbn [firstn]. rewrite app_nil_r.
        rewrite skipn_firstn_comm, firstn_firstn. f_equal. lia. }
      destruct (moves (req t)); cbn [bind].
      * exists (Tls (main t) (fupd (fupd (heap t) p None) (req t) (Some b')) (S (req t))), q, (req t), c'.
        split; [reflexivity|]. split; [right; eapply fresh_unused; eauto|]. split; [auto|]. split; [auto|].
        exact (give_fresh _ _ _ _ _ _ (take_back _ _ _ _ _ I L) B').
      * assert (I1 : inv (Tls (main t) (heap t) (S (req t))) s q).
        { destruct I. constructor; auto. cbn [heap req]. intros x Hx. apply i_req0. lia. }
        exists (Tls (main t) (fupd (heap t) p (Some b')) (S (req t))), q, p, c'.
        split; [reflexivity|]. split; [now left|]. split; [auto|]. split; [auto|].
        eapply inv_ext; [exact (change _ _ _ _ _ _ _ _ I1 L B')| |]; cbn [live raw]; intros x; auto.
        unfold fupd. destruct (Nat.eqb_spec x p); auto.
    + (* through malloc *)
      assert (Hb : h < bits).
      { apply Nat.lt_nge. intros C. rewrite (i_bits _ _ _ I) in G2.
        rewrite !(proj2 (Nat.leb_le _ _)) in G2 by lia. discriminate. }
      assert (Q1 : 0 < 2 ^ pos) by (apply Nat.neq_0_lt_0, Nat.pow_nonzero; lia).
      assert (Q2 : 2 ^ pos <= 2 ^ 30) by (apply Nat.pow_le_mono_r; lia).
      destruct (malloc_ok t s q (2 ^ pos) Avail I Q1 Q2)
        as (t1 & q1 & p' & y & c1 & pos' & M1 & M2 & M3 & M4 & M5 & M6 & M7 & M8).
      rewrite norm_pow in M2 by lia. injection M2 as <-.
      rewrite M1. cbn [bind]. rewrite shl1_ok by lia. cbn [bind].
      assert (Np : p <> p') by (intros ->; destruct M3; congruence).
      unfold memcpy. rewrite M7, E, M5 by auto. unfold slice.
      rewrite (proj2 (Nat.leb_le _ _)) by lia. cbn [bind].
      assert (P4 : 2 ^ h < 2 ^ pos) by (apply Nat.pow_lt_mono_r; lia).
      set (w := firstn (2 ^ h) (skipn 1 b)).
      assert (Lw : length w = 2 ^ h) by (unfold w; rewrite firstn_length, skipn_length; lia).
      pose proof M6 as (K0 & K1 & K2 & K3 & K4 & K5 & K6 & K7).
      unfold blit. rewrite Lw. rewrite (proj2 (Nat.leb_le _ _)) by lia. cbn [bind].
      destruct y as [|y0 y]; [cbn in K0; discriminate|].
      assert (K5' : 2 ^ pos <= length y) by (clear - K5; cbn [length] in K5; lia).
      set (y' := firstn 1 (y0 :: y) ++ w ++ skipn (1 + 2 ^ h) (y0 :: y)).
      assert (Ey : y' = y0 :: w ++ skipn (2 ^ h) y) by reflexivity.
      assert (Ly : length y' = S (length y)).
      { rewrite Ey. cbn [length]. rewrite app_length, skipn_length. clear - Lw P4 K5'. lia. }
      set (c' := firstn n (skipn 1 y')).
      assert (Lc : length c' = n).
      { unfold c'; rewrite firstn_length, skipn_length, Ly. clear - P2 K5'. lia. }
      assert (B' : block y' c' pos).
      { unfold block. rewrite Lc, Ly. split; [rewrite Ey; exact K0|].
        split; [auto|]. split; [auto|]. split; [clear - P2 K5'; lia|]. split; [reflexivity|].
        split; [clear - K5'; lia|]. split; [|auto]. intros C. destruct (K6 C) as (_ & C2 & C3). exact (conj P2 (conj C2 C3)). }
      destruct (B6 Hb) as (D1 & D2 & D3).
      assert (Pc : firstn (Nat.min (length c) n) c' = firstn (Nat.min (length c) n) c).
      { unfold c'. rewrite Ey. cbn [skipn]. unfold w. now apply copy_prefix. }
      assert (L1 : live (View (fupd (live s) p' (Some c1)) (raw s)) p' = Some c1) by (cbn [live]; apply fupd_same).
      pose proof (change _ _ _ _ _ _ _ _ M8 L1 B') as I2.
      assert (L2 : live (View (fupd (live (View (fupd (live s) p' (Some c1)) (raw s))) p' (Some c'))
         (raw (View (fupd (live s) p' (Some c1)) (raw s)))) p = Some c).
      { cbn [live]. now rewrite !fupd_other by auto. }
      destruct (free_ok _ _ _ _ _ k I2 L2) as (t3 & q3 & F1 & F2 & F3 & F4).
      match goal with |- context [bind ?e _] => replace e with (Ok t3) by (symmetry; exact F1) end. cbn [bind]. exists t3, q3, p', c'. split; [reflexivity|]. split; [now right|].
      split; [auto|]. split; [auto|].
      eapply inv_ext; [exact F2| |]; cbn [live raw]; intros x; auto. unfold fupd. destruct (Nat.eqb_spec x p'), (Nat.eqb_spec x p); congruence || reflexivity.
Qed.

Lemma dup_ok t s q p c k : avail (req t) = true -> inv t s q -> live s p = Some c -> strict = true ->
  exists t' q' p' c', dup_malloc node junk avail t (Some p) k = Ok (t', Some p') /\
    unused s p' /\ firstn (length c) c' = c /\
    inv t' (View (fupd (live s) p None) (fupd (raw s) p' (Some c'))) q'.
Proof.
  intros Avail I L ST. destruct (i_live _ _ _ I _ _ L) as (b & h & E & B).
  pose proof B as (B0 & B1 & B2 & B3 & B4 & B5 & B6 & B7). specialize (B7 ST).
  unfold dup_malloc. unfold load at 1. rewrite E. unfold rd. rewrite B0. cbn [bind]. rewrite Nat2N.id.
  rewrite shl1_ok by lia. cbn [bind]. unfold sys_malloc. rewrite Avail.
  assert (Np : p <> req t).
  { intros ->. destruct (fresh_unused _ _ _ _ I (le_n _)). congruence. }
  unfold memcpy. cbn [heap]. rewrite fupd_same, fupd_other, E by auto. unfold slice.
  rewrite (proj2 (Nat.leb_le _ _)) by lia. cbn [bind].
  set (w := firstn (2 ^ h) (skipn 1 b)).
  assert (Lw : length w = 2 ^ h) by (unfold w; rewrite firstn_length, skipn_length; lia).
  unfold blit. rewrite Lw, fresh_length. rewrite (proj2 (Nat.leb_le _ _)) by lia. cbn [bind firstn app].
  rewrite skipn_all2 by (rewrite fresh_length; lia). rewrite app_nil_r. cbn [main req].
  pose proof (step_malloc_sys _ _ _ I w) as I1.
  assert (I2 : inv (Tls (main t) (fupd (fupd (heap t) (req t) (Some (fresh junk (req t) (2 ^ h)))) (req t) (Some w)) (S (req t)))
     (View (live s) (fupd (raw s) (req t) (Some w))) q).
  { destruct I1. constructor; cbn [main heap req live raw] in *; auto.
    - intros x d Hx. destruct (i_live0 x d Hx) as (b1 & h1 & V & W). exists b1, h1. split; auto. revert V. un; auto.
    - intros x d Hx. specialize (i_raw0 x d Hx). revert i_raw0. un; auto.
    - intros i x Hx. destruct (i_q0 i x Hx) as [U (b1 & V & W)]. split; auto. exists b1. split; auto. revert V. un; auto.
    - intros x Hx. specialize (i_req0 x Hx). revert i_req0. un; auto.
    - intros x Hx. apply i_own0. revert Hx. un; auto. }
  destruct (free_ok _ _ _ _ _ k I2 L) as (t3 & q3 & F1 & F2 & F3 & F4).
  rewrite F1. cbn [bind]. exists t3, q3, (req t), w. split; [reflexivity|].
  split; [eapply fresh_unused; eauto|]. split; [|exact F2].
  unfold w. rewrite firstn_firstn. replace (Nat.min (length c) (2 ^ h)) with (length c) by lia. exact B4.
Qed.

Lemma write_ok t s q p c i v : inv t s q -> live s p = Some c -> i < length c ->
  exists t', client_store t p i v = Ok t' /\ inv t' (View (fupd (live s) p (Some (upd c i v))) (raw s)) q.
Proof.
  intros I L H. destruct (i_live _ _ _ I _ _ L) as (b & h & E & B).
  pose proof B as (B0 & B1 & B2 & B3 & B4 & B5 & B6 & B7).
  unfold client_store, store. rewrite E, wr_in by lia. cbn [bind]. eexists; split; [reflexivity|].
  eapply change; eauto. instantiate (1 := h). unfold block. rewrite !upd_length.
  destruct b as [|x b]; [discriminate|]. cbn [skipn nth_error Nat.add upd] in *.
  repeat (split; [solve [auto]|]). split; [|auto].
  rewrite <- B4 at 2. clear - H B3. cbn [length] in B3.
  assert (Hb : length c <= length b) by lia. clear B3. revert i b H Hb. generalize (length c). intros n.
  induction n as [|n IH]; intros i b H Hb; [lia|]. destruct b as [|y b]; [cbn in Hb; lia|].
  destruct i; cbn; [reflexivity|]. f_equal. apply IH; cbn in Hb; lia.
Qed.

Lemma read_ok t s q p c i : inv t s q -> live s p = Some c -> i < length c ->
  exists v, client_load t p i = Ok v /\ nth_error c i = Some v.
Proof.
  intros I L H. destruct (i_live _ _ _ I _ _ L) as (b & h & E & B).
  pose proof B as (B0 & B1 & B2 & B3 & B4 & B5 & B6 & B7).
  unfold client_load, load. rewrite E. unfold rd.
  destruct (nth_error c i) as [v|] eqn:N; [|apply nth_error_None in N; lia].
  exists v. split; auto. destruct b as [|x b]; [discriminate|]. cbn [Nat.add nth_error skipn] in *.
  replace (nth_error b i) with (Some v); auto. rewrite <- N. rewrite <- B4 at 1.
  clear - H. revert i b H. generalize (length c). intros n.
  induction n as [|n IH]; intros i b H; [lia|]. destruct b as [|y b]; [destruct i; reflexivity|].
  destruct i; cbn; auto. apply IH; lia.
Qed.

(** What the client may do when [strict]: reallocations only to cached sizes; otherwise: no dup_malloc. *)
Definition mode_ok (o : op) : Prop :=
  match o with
  | KRealloc _ n _ => strict = true -> n <= 2 ^ (bits - 1)
  | KDup _ _ => strict = true
  | _ => True
  end.

Lemma exec_ok t s q o : avail (req t) = true -> inv t s q -> allowed s o -> mode_ok o ->
  exists t' q' a s', exec node junk avail moves t o = Ok (t', a) /\ step s o a s' /\ inv t' s' q'.
Proof.
  intros Avail I A M. destruct o as [n|p n k|p k|p k|p i v|p i]; cbn [allowed mode_ok exec] in *.
  - destruct n as [|n].
    + exists t, q, (APtr None), s. split; [reflexivity|]. split; [constructor|auto].
    + destruct (malloc_ok t s q (S n) Avail I) as (t' & q' & p & b & c & pos & E1 & _ & E3 & E4 & _ & _ & _ & E8); [lia|auto|].
      rewrite E1. cbn [bind]. eexists t', q', _, _. split; [reflexivity|]. split; [econstructor; eauto; lia|auto].
  - destruct A as [A A']. destruct (live s p) as [c|] eqn:L; [|congruence]. destruct n as [|n].
    + unfold realloc. cbn [Nat.eqb]. destruct (free_ok _ _ _ _ _ k I L) as (t' & q' & E1 & E2 & _).
      rewrite E1. cbn [bind]. eexists t', q', _, _. split; [reflexivity|]. split; [constructor|auto].
    + destruct (realloc_ok t s q p c (S n) k Avail I L) as (t' & q' & p' & c' & E1 & E2 & E3 & E4 & E5); auto; [lia|].
      rewrite E1. cbn [bind]. eexists t', q', _, _. split; [reflexivity|]. split; [econstructor; eauto; lia|auto].
  - destruct (live s p) as [c|] eqn:L; [|congruence].
    destruct (free_ok _ _ _ _ _ k I L) as (t' & q' & E1 & E2 & _).
    rewrite E1. cbn [bind]. eexists t', q', _, _. split; [reflexivity|]. split; [constructor|auto].
  - destruct (live s p) as [c|] eqn:L; [|congruence].
    destruct (dup_ok t s q p c k Avail I L M) as (t' & q' & p' & c' & E1 & E2 & E3 & E4).
    rewrite E1. cbn [bind]. eexists t', q', _, _. split; [reflexivity|]. split; [econstructor; eauto|auto].
  - destruct A as (c & L & H). destruct (write_ok t s q p c i v I L H) as (t' & E1 & E2).
    rewrite E1. cbn [bind]. eexists t', q, _, _. split; [reflexivity|]. split; [econstructor; eauto|auto].
  - destruct A as (c & L & H). destruct (read_ok t s q p c i I L H) as (v & E1 & E2).
    rewrite E1. cbn [bind]. eexists t, q, _, _. split; [reflexivity|]. split; [econstructor; eauto|auto].
Qed.

Lemma nth_repeat_nil {A} k n : nth k (repeat (@nil A) n) [] = [].
Proof. revert k. induction n as [|n IH]; intros [|k]; cbn; auto. Qed.

Lemma init_ok : inv (ThreadInit no_thread bits) nothing (repeat [] bits).
Proof.
  constructor; cbn [ThreadInit no_thread main heap req nothing live raw]; auto; try discriminate.
  - apply repeat_length.
  - intros i p. rewrite nth_repeat_nil. intros [].
  - intros i. rewrite nth_repeat_nil. constructor.
  - intros i j p. rewrite nth_repeat_nil. intros [].
Qed.

(** *** ThreadEnd *)
Lemma free_all_ok l : forall t, NoDup l -> (forall p, In p l -> heap t p <> None) ->
  exists t', free_all t l = Ok t' /\ main t' = main t /\ (forall p, In p l -> heap t' p = None) /\
    (forall p, ~ In p l -> heap t' p = heap t p).
Proof.
  induction l as [|x l IH]; intros t N H; cbn [free_all].
  - exists t. repeat split; auto. intros p [].
  - apply NoDup_tl in N. destruct N as [N1 N2]. unfold sys_free.
    destruct (heap t x) as [b|] eqn:E; [|exfalso; apply (H x); [now left|auto]]. cbn [bind].
    destruct (IH (Tls (main t) (fupd (heap t) x None) (req t))) as (t' & E1 & E2 & E3 & E4); auto.
    + intros p Hp. cbn [heap]. rewrite fupd_other by (intros ->; auto). apply H. now right.
    + exists t'. split; [auto|]. split; [auto|]. split.
      * intros p [<-|Hp]; auto. destruct (in_dec Nat.eq_dec x l); auto. rewrite E4 by auto. cbn [heap]. apply fupd_same.
      * intros p Hp. rewrite E4 by (intros C; apply Hp; now right). cbn [heap]. apply fupd_other. intros ->. apply Hp. now left.
Qed.

Lemma concat_in {A} (q : list (list A)) x : In x (concat q) <-> exists i, In x (nth i q []).
Proof.
  induction q as [|l q IH]; cbn [concat].
  - split; [intros []|intros [[|i] []]].
  - rewrite in_app_iff, IH. split.
    + intros [H|[i H]]; [exists 0|exists (S i)]; auto.
    + intros [[|i] H]; [left|right; exists i]; auto.
Qed.

Lemma concat_nodup {A} (q : list (list A)) : (forall i, NoDup (nth i q [])) ->
  (forall i j p, In p (nth i q []) -> In p (nth j q []) -> i = j) -> NoDup (concat q).
Proof.
  induction q as [|l q IH]; intros H1 H2; cbn [concat]; [constructor|].
  apply NoDup_app_intro.
  - apply (H1 0).
  - apply IH; [intros i; apply (H1 (S i))|]. intros i j p A1 A2.
    specialize (H2 (S i) (S j) p A1 A2). lia.
  - intros x A1 A2. apply concat_in in A2. destruct A2 as [i A2]. specialize (H2 0 (S i) x A1 A2). lia.
Qed.

Lemma end_ok t s q : inv t s q -> exists t', ThreadEnd t = Ok (t', true) /\ main t' = None /\
  forall p, heap t' p <> None <-> live s p <> None \/ raw s p <> None.
Proof.
  intros I. unfold ThreadEnd. rewrite (i_main _ _ _ I).
  destruct (free_all_ok (concat q) (Tls None (heap t) (req t))) as (t' & E1 & E2 & E3 & E4).
  - apply concat_nodup; apply I.
  - intros p H. apply concat_in in H. destruct H as [i H]. destruct (i_q _ _ _ I _ _ H) as [_ (b & E & _)].
    cbn [heap]. congruence.
  - rewrite E1. cbn [bind]. exists t'. split; [auto|]. split; [auto|]. intros p.
    destruct (in_dec Nat.eq_dec p (concat q)) as [D|D].
    + rewrite E3 by auto. apply concat_in in D. destruct D as [i D].
      destruct (i_q _ _ _ I _ _ D) as [[U1 U2] _]. rewrite U1, U2. tauto.
    + rewrite E4 by auto. cbn [heap]. split.
      * intros H. destruct (i_own _ _ _ I _ H) as [V|[V|V]]; auto. exfalso. apply D. now apply concat_in.
      * intros [H|H].
        -- destruct (live s p) as [c|] eqn:L; [|congruence]. destruct (i_live _ _ _ I _ _ L) as (b & h & E & _). congruence.
        -- destruct (raw s p) as [c|] eqn:L; [|congruence]. rewrite (i_raw _ _ _ I _ _ L). discriminate.
Qed.

(** *** Out of memory, cached sizes *)
Lemma inv_more t s q : inv t s q -> inv (Tls (main t) (heap t) (S (req t))) s q.
Proof. intros I. destruct I. constructor; auto. cbn [heap req]. intros x Hx. apply i_req0. lia. Qed.

Lemma malloc_fail t s q n : avail (req t) = false -> inv t s q -> 0 < n -> n <= 2 ^ 30 -> n <= 2 ^ (bits - 1) -> 3 < bits ->
  exists t' q' a s', exec node junk avail moves t (KMalloc n) = Ok (t', a) /\
   (step s (KMalloc n) a s' \/ a = APtr None /\ s' = s) /\ inv t' s' q'.
Proof.
  intros Av I H0 H Hb B3. cbn [exec]. unfold malloc. rewrite (proj2 (Nat.eqb_neq n 0)) by lia.
  rewrite (i_main _ _ _ I). destruct (norm_ok n H) as (pos & -> & P1 & P2 & P3). cbn [bind].
  assert (LF : forall b : bytes, 1 + 2 ^ pos <= length b -> length (firstn n (skipn 1 b)) = n)
    by (intros b Hl; rewrite firstn_length, skipn_length; lia).
  assert (G : pos < length q).
  { rewrite (i_bits _ _ _ I). destruct P3 as [->|P3]; [auto|]. apply Nat.lt_nge. intros C.
    assert (2 ^ (bits - 1) <= 2 ^ (pos - 1)) by (apply Nat.pow_le_mono_r; lia). lia. }
  rewrite (proj2 (Nat.leb_gt _ _) G).
  destruct (nth pos q []) as [|p rest] eqn:Eq.
  - unfold sys_malloc. rewrite Av. cbn [bind]. eexists _, q, _, s. split; [reflexivity|].
    split; [right; split; reflexivity|]. exact (inv_more _ _ _ I).
  - assert (IP : In p (nth pos q [])) by (rewrite Eq; now left).
    destruct (i_q _ _ _ I _ _ IP) as [U (b & U3 & U4)].
    rewrite (tag_ok _ _ _ b); [|exact U3|lia|lia]. cbn [main heap req bind].
    assert (B : block (tagged b pos) (firstn n (skipn 1 b)) pos) by (apply tagged_block; try lia; auto).
    pose proof (give_cached _ _ _ _ _ _ _ _ I B G Eq) as I'.
    eexists _, _, _, _. split; [reflexivity|]. split; [left|exact I'].
    apply s_malloc; [exact H0|apply LF; lia|exact U].
Qed.

Lemma dup_fail t s q p c k : avail (req t) = false -> inv t s q -> live s p = Some c ->
  exists t', dup_malloc node junk avail t (Some p) k = Ok (t', None) /\ inv t' s q.
Proof.
  intros Av I L. destruct (i_live _ _ _ I _ _ L) as (b & h & E & B).
  pose proof B as (B0 & B1 & _).
  unfold dup_malloc. unfold load at 1. rewrite E. unfold rd. rewrite B0. cbn [bind]. rewrite Nat2N.id.
  rewrite shl1_ok by lia. cbn [bind]. unfold sys_malloc. rewrite Av.
  eexists. split; [reflexivity|]. now apply inv_more.
Qed.
End P.
