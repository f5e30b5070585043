(** Proofs about the thread-local allocator in several threads. *)
From Verif Require Import Base S_Seq S_Tls S_TlsThreads M_Tls M_TlsThreads P_Dll P_List P_Tls.
Local Arguments Nat.pow : simpl never.
Local Arguments Nat.max : simpl never.
Local Arguments NormalizeBitPosition : simpl never.
Local Arguments N.modulo : simpl never.

Section T.
Variable node : nat.
Variable junk : nat -> nat -> N.
Variable P : nat -> Prop.
Hypothesis C : compatible node P.

Definition tblock (b c : bytes) (h : nat) : Prop :=
  nth_error b 0 = Some (N.of_nat h) /\ 3 <= h <= 30 /\ 1 + length c <= length b /\ firstn (length c) (skipn 1 b) = c /\
  1 + 2 ^ h <= length b /\ (forall b2, P b2 -> h < b2 -> node <= length b).
Definition cached (w : world) (k i p : nat) : Prop := exists q, mains w k = Some q /\ In p (nth i q []).

Record winv (w : world) (s : tview) : Prop := WInv {
  w_on : forall k, on s k = match mains w k with Some _ => true | None => false end;
  w_bits : forall k q, mains w k = Some q -> P (length q);
  w_live : forall p c, owned s p = Some c -> exists b h, wheap w p = Some b /\ tblock b c h;
  w_q : forall k i p, cached w k i p -> owned s p = None /\ exists b, wheap w p = Some b /\ 1 + 2 ^ i <= length b /\ node <= length b;
  w_nd : forall k i q, mains w k = Some q -> NoDup (nth i q []);
  w_one : forall k k' i i' p, cached w k i p -> cached w k' i' p -> k = k' /\ i = i';
  w_req : forall p, wreq w <= p -> wheap w p = None;
  w_own : forall p, wheap w p <> None -> owned s p <> None \/ exists k i, cached w k i p
}.

Lemma cached_set f h r k x i p : cached (World (fupd f k x) h r) k i p <-> exists q, x = Some q /\ In p (nth i q []).
Proof. unfold cached. cbn [mains]. rewrite fupd_same. tauto. Qed.
Lemma cached_other f h r h' r' k x k' i p : k' <> k -> cached (World (fupd f k x) h r) k' i p <-> cached (World f h' r') k' i p.
Proof. intro H. unfold cached. cbn [mains]. rewrite fupd_other by exact H. tauto. Qed.
Lemma cached_id w k x i p h r : mains w k = x -> forall k', cached (World (fupd (mains w) k x) h r) k' i p <-> cached w k' i p.
Proof.
  intros E k'. unfold cached. cbn [mains]. destruct (Nat.eq_dec k' k) as [->|D]; [rewrite fupd_same, E; tauto|rewrite fupd_other by exact D; tauto].
Qed.

(** The queues stay; the heap and the blocks of the program change. *)
Lemma change_heap w s k t s' : winv w s -> main t = mains w k -> on s' = on s ->
  (forall p c, owned s' p = Some c -> exists b h, heap t p = Some b /\ tblock b c h) ->
  (forall k i p, cached w k i p -> owned s' p = None /\ heap t p = wheap w p) ->
  (forall p, req t <= p -> heap t p = None) ->
  (forall p, heap t p <> None -> owned s' p <> None \/ exists k i, cached w k i p) -> winv (leave w k t) s'.
Proof.
  intros I Em Eo HL HQ HR HO. unfold leave. rewrite Em.
  assert (K : forall i p h r k', cached (World (fupd (mains w) k (mains w k)) h r) k' i p <-> cached w k' i p) by (intros; apply cached_id; reflexivity).
  assert (Km : forall k', fupd (mains w) k (mains w k) k' = mains w k') by (intro k'; unfold fupd; destruct (Nat.eqb_spec k' k) as [->|]; reflexivity).
  constructor; cbn [mains wheap wreq].
  - intro k'. rewrite Km, Eo. apply (w_on _ _ I).
  - intros k' q. rewrite Km. apply (w_bits _ _ I).
  - exact HL.
  - intros k' i p H. apply K in H. destruct (HQ _ _ _ H) as [A1 A2]. split; [exact A1|]. rewrite A2. apply (w_q _ _ I _ _ _ H).
  - intros k' i q. rewrite Km. apply (w_nd _ _ I).
  - intros k1 k2 i1 i2 p H1 H2. apply K in H1, H2. exact (w_one _ _ I _ _ _ _ _ H1 H2).
  - exact HR.
  - intros p H. destruct (HO p H) as [A|(k' & i & A)]; [left; exact A|right]. exists k', i. apply K. exact A.
Qed.

Lemma tagged_tblock b pos n : n <= 2 ^ pos -> 3 <= pos <= 30 -> 1 + 2 ^ pos <= length b -> (forall b2, P b2 -> pos < b2 -> node <= length b) ->
  tblock (tagged b pos) (firstn n (skipn 1 b)) pos /\ length (firstn n (skipn 1 b)) = n.
Proof.
  intros H1 H2 H3 H4. assert (L : length (firstn n (skipn 1 b)) = n) by (rewrite firstn_length, skipn_length; lia).
  split; [|exact L]. unfold tblock, tagged. rewrite upd_length, L. split; [apply upd_nth_same; lia|]. split; [exact H2|]. split; [lia|]. split; [destruct b; reflexivity|]. split; [exact H3|exact H4].
Qed.

(** A new block of the C library *)
Lemma give_new w s k b c h : winv w s -> tblock b c h ->
  winv (leave w k (Tls (mains w k) (fupd (wheap w) (wreq w) (Some b)) (S (wreq w)))) (TView (fupd (owned s) (wreq w) (Some c)) (on s)) /\ owned s (wreq w) = None.
Proof.
  intros I B. assert (U : owned s (wreq w) = None).
  { destruct (owned s (wreq w)) as [c'|] eqn:E; [|reflexivity]. destruct (w_live _ _ I _ _ E) as (b' & h' & E' & _). rewrite (w_req _ _ I) in E' by lia. discriminate. }
  split; [|exact U]. apply (change_heap w s k); [exact I|reflexivity|reflexivity| | | |]; cbn [heap req owned].
  - intros p c' E. unfold fupd in *. destruct (Nat.eqb_spec p (wreq w)) as [->|D]; [injection E as <-; eauto|apply (w_live _ _ I); exact E].
  - intros k' i p Q. destruct (w_q _ _ I _ _ _ Q) as (U1 & b' & E' & _). assert (p <> wreq w) by (intros ->; rewrite (w_req _ _ I) in E' by lia; discriminate). rewrite !fupd_other by assumption. auto.
  - intros p H. rewrite fupd_other by lia. apply (w_req _ _ I). lia.
  - intros p H. destruct (Nat.eq_dec p (wreq w)) as [E|D]; [left; rewrite E, fupd_same; discriminate|rewrite fupd_other in H |- * by exact D; apply (w_own _ _ I); exact H].
Qed.

Lemma malloc_threads w s k n : winv w s -> 0 < n -> n <= 2 ^ 30 -> on s k = true ->
  exists t p c, malloc node junk (fun _ => true) (see w k) n = Ok (t, Some p) /\ length c = n /\ owned s p = None /\ winv (leave w k t) (TView (fupd (owned s) p (Some c)) (on s)).
Proof.
  intros I N0 N1 O. rewrite (w_on _ _ I) in O. destruct (mains w k) as [q|] eqn:Em; [|discriminate]. pose proof (w_bits _ _ I _ _ Em) as Pq.
  destruct (norm_ok n N1) as (pos & E1 & E2 & E3 & _). unfold malloc. rewrite (proj2 (Nat.eqb_neq n 0)) by lia. unfold see. rewrite Em. cbn [main]. rewrite E1. cbn [bind].
  destruct (Nat.leb_spec (length q) pos) as [L|L].
  - unfold sys_malloc. cbn [req main heap]. set (b := fresh junk (wreq w) (2 ^ pos + 1)).
    assert (Lb : length b = 2 ^ pos + 1) by (unfold b; apply fresh_length).
    destruct (tagged_tblock b pos n E3 E2 ltac:(lia)) as [B Lc]. { intros b2 H2 L2. rewrite Lb. apply (C (length q) b2 pos); [exact Pq|exact H2|lia|lia]. }
    destruct (give_new w s k _ _ _ I B) as [I' U].
    rewrite (tag_ok _ _ pos b); [|cbn [heap]; apply fupd_same|lia|lia]. eexists. exists (wreq w). eexists. split; [reflexivity|]. split; [exact Lc|]. split; [exact U|].
    cbn [main heap req]. unfold leave in *. cbn [main heap req] in *. rewrite Em in I'. clear - I'.
    destruct I' as [A1 A2 A3 A4 A5 A6 A7 A8]. 
    assert (Q : forall p, fupd (fupd (wheap w) (wreq w) (Some b)) (wreq w) (Some (tagged b pos)) p = fupd (wheap w) (wreq w) (Some (tagged b pos)) p) by (intro p; unfold fupd; destruct (p =? wreq w); reflexivity).
    constructor; cbn [mains wheap wreq] in *; auto.
    + intros p c E. rewrite Q. exact (A3 p c E).
    + intros k' i p E. rewrite Q. exact (A4 k' i p E).
    + intros p H. rewrite Q. exact (A7 p H).
    + intros p H. rewrite Q in H. exact (A8 p H).
  - destruct (nth pos q []) as [|id rest] eqn:En.
    + unfold sys_malloc. cbn [req main heap]. set (b := fresh junk (wreq w) (Nat.max (2 ^ pos + 1) node)).
      assert (Lb : length b = Nat.max (2 ^ pos + 1) node) by (unfold b; apply fresh_length).
      destruct (tagged_tblock b pos n E3 E2 ltac:(lia)) as [B Lc]. { intros b2 H2 L2. lia. }
      destruct (give_new w s k _ _ _ I B) as [I' U].
      rewrite (tag_ok _ _ pos b); [|cbn [heap]; apply fupd_same|lia|lia]. eexists. exists (wreq w). eexists. split; [reflexivity|]. split; [exact Lc|]. split; [exact U|].
      cbn [main heap req]. unfold leave in *. cbn [main heap req] in *. rewrite Em in I'. clear - I'.
      destruct I' as [A1 A2 A3 A4 A5 A6 A7 A8].
      assert (Q : forall p, fupd (fupd (wheap w) (wreq w) (Some b)) (wreq w) (Some (tagged b pos)) p = fupd (wheap w) (wreq w) (Some (tagged b pos)) p) by (intro p; unfold fupd; destruct (p =? wreq w); reflexivity).
      constructor; cbn [mains wheap wreq] in *; auto.
      * intros p c E. rewrite Q. exact (A3 p c E).
      * intros k' i p E. rewrite Q. exact (A4 k' i p E).
      * intros p H. rewrite Q. exact (A7 p H).
      * intros p H. rewrite Q in H. exact (A8 p H).
    + assert (Hc : cached w k pos id) by (exists q; rewrite En; split; [exact Em|left; reflexivity]).
      destruct (w_q _ _ I _ _ _ Hc) as (U & b & Eb & L1 & L2).
      destruct (tagged_tblock b pos n E3 E2 L1) as [B Lc]. { intros. exact L2. }
      pose proof (w_nd _ _ I k pos q Em) as Nd. rewrite En in Nd. apply NoDup_tl in Nd. destruct Nd as [Nd Ni].
      rewrite (tag_ok _ _ pos b); [|exact Eb|lia|lia]. cbn [main heap req]. eexists. exists id. eexists. split; [reflexivity|]. split; [exact Lc|]. split; [exact U|].
      unfold leave. cbn [main heap req].
      (* what is cached afterwards *)
      assert (K : forall k' i p h r, cached (World (fupd (mains w) k (Some (upd q pos rest))) h r) k' i p -> cached w k' i p /\ p <> id).
      { intros k' i p h r X. destruct (Nat.eq_dec k' k) as [->|D].
        - apply (proj1 (cached_set _ _ _ _ _ _ _)) in X. destruct X as (q' & Eq & X). injection Eq as <-. rewrite nth_upd in X by exact L. destruct (Nat.eqb_spec i pos) as [->|D].
          + split; [exists q; rewrite En; split; [exact Em|right; exact X]|intros ->; contradiction].
          + assert (Y : cached w k i p) by (exists q; auto). split; [exact Y|]. intros ->. destruct (w_one _ _ I _ _ _ _ _ Y Hc) as [_ Z]. contradiction.
        - apply (cached_other _ _ _ (wheap w) (wreq w)) in X; [|exact D]. assert (Y : cached w k' i p) by exact X. split; [exact Y|]. intros ->. destruct (w_one _ _ I _ _ _ _ _ Y Hc) as [Z _]. contradiction. }
      assert (K' : forall k' i p h r, cached w k' i p -> p <> id -> cached (World (fupd (mains w) k (Some (upd q pos rest))) h r) k' i p).
      { intros k' i p h r X D. destruct (Nat.eq_dec k' k) as [->|D'].
        - apply cached_set. destruct X as (q' & Eq & X). assert (q' = q) as -> by congruence. eexists. split; [reflexivity|]. rewrite nth_upd by exact L. destruct (Nat.eqb_spec i pos) as [->|]; [|exact X]. rewrite En in X. destruct X as [X|X]; [congruence|exact X].
        - apply (cached_other _ _ _ (wheap w) (wreq w)); [exact D'|exact X]. }
      constructor; cbn [mains wheap wreq on owned].
      * intro k'. unfold fupd. destruct (Nat.eqb_spec k' k) as [->|D]; rewrite (w_on _ _ I); [rewrite Em|]; reflexivity.
      * intros k' q' X. unfold fupd in X. destruct (Nat.eqb_spec k' k) as [->|D]; [injection X as <-; rewrite upd_length; exact Pq|exact (w_bits _ _ I _ _ X)].
      * intros p c X. unfold fupd in *. destruct (Nat.eqb_spec p id) as [->|D]; [injection X as <-; eauto|exact (w_live _ _ I _ _ X)].
      * intros k' i p X. destruct (K _ _ _ _ _ X) as [Y D]. rewrite !fupd_other by exact D. exact (w_q _ _ I _ _ _ Y).
      * intros k' i q' X. unfold fupd in X. destruct (Nat.eqb_spec k' k) as [->|D]; [|exact (w_nd _ _ I _ _ _ X)]. injection X as <-. rewrite nth_upd by exact L. destruct (Nat.eqb_spec i pos); [exact Nd|exact (w_nd _ _ I k i q Em)].
      * intros k1 k2 i1 i2 p X1 X2. apply K in X1, X2. exact (w_one _ _ I _ _ _ _ _ (proj1 X1) (proj1 X2)).
      * intros p X. assert (p <> id) by (intros ->; rewrite (w_req _ _ I) in Eb by exact X; discriminate). rewrite fupd_other by assumption. exact (w_req _ _ I _ X).
      * intros p X. destruct (Nat.eq_dec p id) as [->|D]; [left; rewrite fupd_same; discriminate|]. rewrite fupd_other in X |- * by exact D. destruct (w_own _ _ I p X) as [Y|(k' & i & Y)]; [left; exact Y|right; exists k', i; apply K'; assumption].
Qed.

Lemma free_threads w s k p c ca : winv w s -> owned s p = Some c -> on s k = true ->
  exists t, free node junk (see w k) (Some p) ca = Ok t /\ winv (leave w k t) (TView (fupd (owned s) p None) (on s)).
Proof.
  intros I Ow O. rewrite (w_on _ _ I) in O. destruct (mains w k) as [q|] eqn:Em; [|discriminate]. pose proof (w_bits _ _ I _ _ Em) as Pq.
  destruct (w_live _ _ I _ _ Ow) as (b & h & Eb & B1 & B2 & B3 & B4 & B5 & B6).
  assert (NQ : forall k' i, ~ cached w k' i p) by (intros k' i X; destruct (w_q _ _ I _ _ _ X) as [Y _]; congruence).
  unfold free, see. rewrite Em. cbn [main heap]. unfold load. cbn [heap]. rewrite Eb. unfold rd. rewrite B1. cbn [bind]. rewrite Nat2N.id.
  assert (Fr : winv (leave w k (Tls (Some q) (fupd (wheap w) p None) (wreq w))) (TView (fupd (owned s) p None) (on s))).
  { apply (change_heap w s k); [exact I|cbn; congruence|reflexivity| | | |]; cbn [heap req owned].
    - intros p' c' X. unfold fupd in *. destruct (Nat.eqb_spec p' p) as [->|D]; [discriminate|exact (w_live _ _ I _ _ X)].
    - intros k' i p' X. assert (p' <> p) by (intros ->; exact (NQ _ _ X)). rewrite !fupd_other by assumption. split; [apply (w_q _ _ I _ _ _ X)|reflexivity].
    - intros p' X. unfold fupd. destruct (p' =? p); [reflexivity|exact (w_req _ _ I _ X)].
    - intros p' X. destruct (Nat.eq_dec p' p) as [E|D]; [rewrite E, fupd_same in X; congruence|rewrite fupd_other in X |- * by exact D; exact (w_own _ _ I _ X)]. }
  unfold sys_free. cbn [heap main req]. rewrite Eb.
  destruct (Nat.leb_spec (length q) h) as [L|L]; [eexists; split; [reflexivity|exact Fr]|].
  destruct ca; cbn [negb]; [|eexists; split; [reflexivity|exact Fr]].
  pose proof (B6 _ Pq L) as Bn.
  destruct (blit b 0 (fresh junk p node)) as [b'| |] eqn:Ebl.
  2, 3: exfalso; revert Ebl; unfold blit; rewrite fresh_length; rewrite (proj2 (Nat.leb_le _ _)) by lia; discriminate.
  pose proof (blit_length _ _ _ _ Ebl) as Lb.
  cbn [bind]. eexists. split; [reflexivity|]. unfold leave. cbn [main heap req].
  set (q1 := upd q h (nth h q [] ++ [p])).
  assert (K : forall k' i x hh r, cached (World (fupd (mains w) k (Some q1)) hh r) k' i x <-> cached w k' i x \/ (k' = k /\ i = h /\ x = p)).
  { intros k' i x hh r. destruct (Nat.eq_dec k' k) as [->|D].
    - rewrite cached_set. split.
      + intros (q' & [= <-] & X). unfold q1 in X. rewrite nth_upd in X by exact L. destruct (Nat.eqb_spec i h) as [->|D]; [|left; exists q; auto]. apply in_app_iff in X. destruct X as [X|[X|[]]]; [left; exists q; auto|right; auto].
      + intros X. exists q1. split; [reflexivity|]. unfold q1. rewrite nth_upd by exact L. destruct X as [(q' & Eq & X)|(_ & -> & ->)].
        * assert (q' = q) as -> by congruence. destruct (Nat.eqb_spec i h) as [->|]; [apply in_app_iff; left|]; exact X.
        * rewrite Nat.eqb_refl. apply in_app_iff. right. left. reflexivity.
    - rewrite (cached_other _ _ _ (wheap w) (wreq w)) by exact D. split; [intro X; left; exact X|intros [X|[X _]]; [exact X|contradiction]]. }
  constructor; cbn [mains wheap wreq on owned].
  - intro k'. unfold fupd. destruct (Nat.eqb_spec k' k) as [->|D]; rewrite (w_on _ _ I); [rewrite Em|]; reflexivity.
  - intros k' q' X. unfold fupd in X. destruct (Nat.eqb_spec k' k) as [->|D]; [injection X as <-; unfold q1; rewrite upd_length; exact Pq|exact (w_bits _ _ I _ _ X)].
  - intros x c' X. unfold fupd in *. destruct (Nat.eqb_spec x p) as [->|D]; [discriminate|exact (w_live _ _ I _ _ X)].
  - intros k' i x X. apply K in X. destruct X as [X|(-> & -> & ->)].
    + assert (x <> p) by (intros ->; exact (NQ _ _ X)). rewrite !fupd_other by assumption. exact (w_q _ _ I _ _ _ X).
    + rewrite !fupd_same. split; [reflexivity|]. exists b'. split; [reflexivity|]. rewrite Lb. auto.
  - intros k' i q' X. unfold fupd in X. destruct (Nat.eqb_spec k' k) as [->|D]; [|exact (w_nd _ _ I _ _ _ X)]. injection X as <-. unfold q1. rewrite nth_upd by exact L. destruct (Nat.eqb_spec i h) as [->|]; [|exact (w_nd _ _ I k i q Em)].
    apply NoDup_app_intro; [exact (w_nd _ _ I k h q Em)|constructor; [intros []|constructor]|]. intros x X [<-|[]]. apply (NQ k h). exists q. auto.
  - intros k1 k2 i1 i2 x X1 X2. apply K in X1, X2. destruct X1 as [X1|(Ea & Eb1 & Ec)], X2 as [X2|(Ea2 & Eb2 & Ec2)]; [exact (w_one _ _ I _ _ _ _ _ X1 X2)|exfalso; subst x; exact (NQ _ _ X1)|exfalso; subst x; exact (NQ _ _ X2)|split; congruence].
  - intros x X. assert (x <> p) by (intros ->; rewrite (w_req _ _ I) in Eb by exact X; discriminate). rewrite fupd_other by assumption. exact (w_req _ _ I _ X).
  - intros x X. destruct (Nat.eq_dec x p) as [->|D]; [right; exists k, h; apply K; auto|]. rewrite fupd_other in X |- * by exact D. destruct (w_own _ _ I x X) as [Y|(k' & i & Y)]; [left; exact Y|right; exists k', i; apply K; auto].
Qed.

Lemma end_threads w s k : winv w s -> exists t b, ThreadEnd (see w k) = Ok (t, b) /\ winv (leave w k t) (TView (owned s) (fupd (on s) k false)).
Proof.
  intro I. unfold ThreadEnd, see. cbn [main heap req]. destruct (mains w k) as [q|] eqn:Em.
  2:{ eexists. eexists. split; [reflexivity|].
      assert (J : winv (leave w k (Tls None (wheap w) (wreq w))) s).
      { apply (change_heap w s k); [exact I|cbn; congruence|reflexivity|exact (w_live _ _ I)| |exact (w_req _ _ I)|exact (w_own _ _ I)]. intros k' i p X. split; [apply (w_q _ _ I _ _ _ X)|reflexivity]. }
      destruct J as [A1 A2 A3 A4 A5 A6 A7 A8]. constructor; cbn [on owned]; auto.
      intro k'. specialize (A1 k'). unfold leave in *. cbn [mains main] in *. unfold fupd in *. destruct (k' =? k); [reflexivity|exact A1]. }
  destruct (free_all_ok (concat q) (Tls None (wheap w) (wreq w))) as (t & E1 & E2 & E3 & E4).
  { apply concat_nodup; [intro i; exact (w_nd _ _ I k i q Em)|]. intros i j p X Y. apply (w_one _ _ I k k i j p); exists q; auto. }
  { intros p X. apply concat_in in X. destruct X as [i X]. destruct (w_q _ _ I k i p) as (_ & b & Eb & _); [exists q; auto|]. cbn [heap]. congruence. }
  assert (E5 : req t = wreq w).
  { assert (G : forall l t1 t2, free_all t1 l = Ok t2 -> req t2 = req t1).
    { induction l as [|x l IH]; cbn [free_all]; intros t1 t2 X; [congruence|]. unfold sys_free in X. destruct (heap t1 x); [|discriminate]. cbn [bind] in X. rewrite (IH _ _ X). reflexivity. }
    exact (G _ _ _ E1). }
  rewrite E1. cbn [bind]. eexists. eexists. split; [reflexivity|]. unfold leave. rewrite E2, E5. cbn [main].
  assert (K : forall k' i x hh r, cached (World (fupd (mains w) k None) hh r) k' i x <-> k' <> k /\ cached w k' i x).
  { intros k' i x hh r. destruct (Nat.eq_dec k' k) as [->|D]; [rewrite cached_set; split; [intros (? & ? & _); discriminate|tauto]|rewrite (cached_other _ _ _ (wheap w) (wreq w)) by exact D; split; [intro X; split; [exact D|exact X]|intros [_ X]; exact X]]. }
  assert (NC : forall x, ~ In x (concat q) -> heap t x = wheap w x) by (intros x X; rewrite E4 by exact X; reflexivity).
  assert (IC : forall x, In x (concat q) -> exists i, cached w k i x) by (intros x X; apply concat_in in X; destruct X as [i X]; exists i, q; auto).
  constructor; cbn [mains wheap wreq on owned].
  - intro k'. unfold fupd. destruct (k' =? k); [reflexivity|apply (w_on _ _ I)].
  - intros k' q' X. unfold fupd in X. destruct (k' =? k); [discriminate|exact (w_bits _ _ I _ _ X)].
  - intros p c X. rewrite NC; [exact (w_live _ _ I _ _ X)|]. intro Y. apply IC in Y. destruct Y as [i Y]. destruct (w_q _ _ I _ _ _ Y). congruence.
  - intros k' i p X. apply K in X. destruct X as [D X]. rewrite NC; [exact (w_q _ _ I _ _ _ X)|]. intro Y. apply IC in Y. destruct Y as [j Y]. destruct (w_one _ _ I _ _ _ _ _ X Y). contradiction.
  - intros k' i q' X. unfold fupd in X. destruct (k' =? k); [discriminate|exact (w_nd _ _ I _ _ _ X)].
  - intros k1 k2 i1 i2 p X1 X2. apply K in X1, X2. exact (w_one _ _ I _ _ _ _ _ (proj2 X1) (proj2 X2)).
  - intros p X. destruct (in_dec Nat.eq_dec p (concat q)) as [D|D]; [exact (E3 p D)|]. rewrite NC by exact D. exact (w_req _ _ I _ X).
  - intros p X. destruct (in_dec Nat.eq_dec p (concat q)) as [D|D]; [rewrite E3 in X by exact D; congruence|]. rewrite NC in X by exact D. destruct (w_own _ _ I p X) as [Y|(k' & i & Y)]; [left; exact Y|right]. exists k', i. apply K. split; [|exact Y].
    intros ->. apply D. apply concat_in. destruct Y as (q' & Eq & Y). assert (q' = q) as -> by congruence. eauto.
Qed.
End T.
