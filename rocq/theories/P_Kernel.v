(** Proofs: the two platforms agree. *)
From Verif Require Import Base M_Kernel S_Kernel.
Open Scope N_scope.

Lemma kind_eqb_spec a b : reflect (a = b) (kind_eqb a b).
Proof. destruct a, b; cbn; constructor; congruence. Qed.
Lemma key_eqb_spec a b : reflect (a = b) (key_eqb a b).
Proof.
  destruct a as [k s|i], b as [l t|j]; cbn; try (constructor; congruence).
  - destruct (kind_eqb_spec k l), (N.eqb_spec s t); cbn; constructor; congruence.
  - destruct (Nat.eqb_spec i j); constructor; congruence.
Qed.

Section Kinds.
Variable kindof : nat -> kind.
Variable n : nat.

Lemma referred_true w k : referred n w k = true <-> exists j, (j < n)%nat /\ refs w j = Some k.
Proof.
  unfold referred. rewrite existsb_exists. split.
  - intros (j & Hj & H). apply in_seq in Hj. exists j. split; [lia|]. destruct (refs w j) as [x|]; [|discriminate].
    destruct (key_eqb_spec x k); congruence.
  - intros (j & Hj & H). exists j. split; [apply in_seq; lia|]. rewrite H. destruct (key_eqb_spec k k); congruence.
Qed.

(** The states of the two platforms ([p], [w]) after the same calls. *)
Definition R (p w : world) (used : kind -> N -> bool) : Prop :=
  (forall i, refs p i = refs w i) /\
  (forall i k, refs w i = Some k -> (i < n)%nat /\ store w k <> None /\ store p k = store w k /\
     match k with Named k0 s => k0 = kindof i /\ used k0 s = true | Private j => j = i end) /\
  (forall k, store w k <> None -> exists i, refs w i = Some k) /\
  (forall k s, store p (Named k s) <> None -> used k s = true) /\
  (forall k c m, store w k = Some (OSem c m) -> c <= m /\ m < 2147483648).

Ltac keys := repeat match goal with
  | |- context [key_eqb ?a ?b] => destruct (key_eqb_spec a b)
  | H : context [key_eqb ?a ?b] |- _ => destruct (key_eqb_spec a b)
  | |- context [(?a =? ?b)%nat] => destruct (Nat.eqb_spec a b)
  | H : context [(?a =? ?b)%nat] |- _ => destruct (Nat.eqb_spec a b)
  end.

Lemma R_release p w used i : R p w used -> R (p_release p i) (w_release n w i) used.
Proof.
  intros (H1 & H2 & H3 & H4 & H5). unfold p_release, w_release. destruct (refs w i) as [k|] eqn:E.
  - destruct (referred n (set_ref w i None) k) eqn:ER.
    + apply referred_true in ER. destruct ER as (j0 & Hj0 & Hr0). cbn in Hr0. destruct (Nat.eqb_spec j0 i) as [->|Nj]; [discriminate|].
      unfold R; cbn [refs store set_store set_ref]; repeat split.
      * intros j. keys; auto.
      * keys; [discriminate|]. apply (H2 i0 k0 H).
      * keys; [discriminate|]. apply (H2 i0 k0 H).
      * keys; [discriminate|]. apply (H2 i0 k0 H).
      * keys; [discriminate|]. apply (H2 i0 k0 H).
      * intros k0 Hk. destruct (H3 k0 Hk) as [j Hj]. destruct (Nat.eq_dec j i) as [->|N].
        -- exists j0. keys; [congruence|]. rewrite E in Hj. congruence.
        -- exists j. keys; [congruence|]. exact Hj.
      * auto.
      * eapply H5; eauto.
      * eapply H5; eauto.
    + assert (NR : forall j, j <> i -> refs w j <> Some k).
      { intros j N X. enough (referred n (set_ref w i None) k = true) by congruence. apply referred_true. exists j.
        split; [apply (H2 j k X)|]. cbn. keys; [congruence|]. exact X. }
      unfold R; cbn [refs store set_store set_ref]; repeat split.
      * intros j. keys; auto.
      * keys; [discriminate|]. apply (H2 i0 k0 H).
      * keys; try discriminate; try (subst; now apply NR in H); apply (H2 i0 k0 H).
      * keys; try discriminate; try (subst; now apply NR in H); apply (H2 i0 k0 H).
      * keys; [discriminate|]. apply (H2 i0 k0 H).
      * intros k0 Hk. keys; [congruence|]. destruct (H3 k0 Hk) as [j Hj]. exists j. keys; [congruence|]. exact Hj.
      * auto.
      * keys; [discriminate|]. eapply H5; eauto.
      * keys; [discriminate|]. eapply H5; eauto.
  - unfold R; cbn [refs store set_store set_ref]; repeat split.
    + intros j. keys; [congruence|apply H1].
    + apply (H2 i0 k H).
    + apply (H2 i0 k H).
    + apply (H2 i0 k H).
    + apply (H2 i0 k H).
    + auto.
    + auto.
    + eapply H5; eauto.
    + eapply H5; eauto.
Qed.

(** Changing the object that [i] refers to. *)
Lemma R_set p w used i k o : R p w used -> refs w i = Some k ->
  (forall c m, o = OSem c m -> c <= m /\ m < 2147483648) ->
  R (set_store p k (Some o)) (set_store w k (Some o)) used.
Proof.
  intros (H1 & H2 & H3 & H4 & H5) E Ho. unfold R; cbn [refs store set_store set_ref]; repeat split.
  - auto.
  - apply (H2 i0 k0 H).
  - keys; [discriminate|]. apply (H2 i0 k0 H).
  - keys; [reflexivity|]. apply (H2 i0 k0 H).
  - apply (H2 i0 k0 H).
  - intros k0. keys; [intros _; exists i; congruence|apply H3].
  - intros k0 s. keys; [intros _|apply H4]. specialize (H2 i k E). destruct H2 as (_ & _ & _ & U). subst k. apply U.
  - keys; [inversion H; subst; eapply Ho; eauto|eapply H5; eauto].
  - keys; [inversion H; subst; eapply Ho; eauto|eapply H5; eauto].
Qed.

Lemma get_same p w used i : R p w used -> get p i = get w i.
Proof.
  intros (H1 & H2 & _). unfold get. rewrite H1. destruct (refs w i) as [k|] eqn:E; auto.
  destruct (H2 i k E) as (_ & _ & -> & _). reflexivity.
Qed.
Lemma get_ref w i k o : get w i = Some (k, o) -> refs w i = Some k /\ store w k = Some o.
Proof. unfold get. destruct (refs w i) as [x|]; [|discriminate]. destruct (store w x) eqn:E; [|discriminate]. intros H. inversion H; subst. auto. Qed.

Lemma R_use p w used used' : (forall k s, used k s = true -> used' k s = true) -> R p w used -> R p w used'.
Proof.
  intros U (H1 & H2 & H3 & H4 & H5). split; [auto|]. split; [|split; [auto|split; [|auto]]].
  - intros i k E. destruct (H2 i k E) as (A & B & C & D). repeat split; auto. destruct k; auto. destruct D. auto.
  - intros k s H. apply U, H4, H.
Qed.

Lemma u32_small v : (0 < v < 2147483648)%Z -> u32 v < 2147483648.
Proof. intros H. unfold u32. rewrite Z.mod_small by lia. lia. Qed.

Lemma R_attach p w used i name o : R p w used -> refs w i = None -> (i < n)%nat ->
  (forall c m, o = OSem c m -> c <= m /\ m < 2147483648) ->
  (forall s, name = Some s -> used (kindof i) s = true -> exists j, refs w j = Some (Named (kindof i) s)) ->
  R (attach kindof p i name o) (attach kindof w i name o) (use kindof used (Create i name 0 false false)).
Proof.
  intros HR E Hi Ho Hu. pose proof HR as (H1 & H2 & H3 & H4 & H5).
  assert (NP : forall j, refs w j = Some (Private i) -> False).
  { intros j X. destruct (H2 j _ X) as (_ & _ & _ & ->). congruence. }
  destruct name as [s|].
  - assert (SS : store p (Named (kindof i) s) = store w (Named (kindof i) s)).
    { destruct (store p (Named (kindof i) s)) eqn:EP.
      - destruct (Hu s eq_refl) as [j Hj]; [apply H4; congruence|]. destruct (H2 j _ Hj) as (_ & _ & X & _). congruence.
      - destruct (store w (Named (kindof i) s)) eqn:EW; auto. destruct (H3 (Named (kindof i) s)) as [j Hj]; [congruence|].
        destruct (H2 j _ Hj) as (_ & _ & X & _). congruence. }
    assert (SE : used (kindof i) s = true \/ store w (Named (kindof i) s) = None).
    { destruct (store w (Named (kindof i) s)) eqn:EW; auto. left. apply H4. congruence. }
    unfold attach. cbn [key_of]. rewrite SS. cbn [use].
    assert (UU : forall k t, used k t = true -> ((kind_eqb k (kindof i) && (t =? s)) || used k t)%bool = true) by (intros k t ->; apply orb_true_r).
    assert (US : ((kind_eqb (kindof i) (kindof i) && (s =? s)) || used (kindof i) s)%bool = true).
    { destruct (kind_eqb_spec (kindof i) (kindof i)); [|congruence]. rewrite N.eqb_refl. reflexivity. }
    destruct (store w (Named (kindof i) s)) as [o0|] eqn:EW.
    + unfold R; cbn [refs store set_store set_ref]; repeat split.
      * intros j. keys; auto.
      * keys; [congruence|]. apply (H2 i0 k H).
      * keys; [inversion H; subst; congruence|]. apply (H2 i0 k H).
      * keys; [inversion H; subst; congruence|]. apply (H2 i0 k H).
      * keys; [inversion H; subst; auto|]. destruct (H2 i0 k H) as (_ & _ & _ & D). destruct k; auto. destruct D. auto.
      * intros k Hk. destruct (H3 k Hk) as [j Hj]. exists j. keys; [congruence|exact Hj].
      * auto.
      * eapply H5; eauto.
      * eapply H5; eauto.
    + unfold R; cbn [refs store set_store set_ref]; repeat split.
      * intros j. keys; auto.
      * keys; [congruence|]. apply (H2 i0 k H).
      * keys; try discriminate; try congruence. apply (H2 i0 k H).
      * keys; try congruence. apply (H2 i0 k H).
      * keys; [inversion H; subst; auto|]. destruct (H2 i0 k H) as (_ & _ & _ & D). destruct k; auto. destruct D. auto.
      * intros k. keys; [intros _; exists i; keys; congruence|]. intros Hk. destruct (H3 k Hk) as [j Hj]. exists j. keys; [congruence|exact Hj].
      * intros k t. keys; [inversion e; subst; auto|auto].
      * keys; [inversion H; subst; eapply Ho; eauto|eapply H5; eauto].
      * keys; [inversion H; subst; eapply Ho; eauto|eapply H5; eauto].
  - unfold attach. cbn [key_of use]. unfold R; cbn [refs store set_store set_ref]; repeat split.
    + intros j. keys; auto.
    + keys; [congruence|]. apply (H2 i0 k H).
    + keys; try discriminate; try congruence. apply (H2 i0 k H).
    + keys; try congruence. apply (H2 i0 k H).
    + keys; [inversion H; subst; auto|]. destruct (H2 i0 k H) as (_ & _ & _ & D). destruct k; auto.
    + intros k. keys; [intros _; exists i; keys; congruence|]. intros Hk. destruct (H3 k Hk) as [j Hj]. exists j. keys; [congruence|exact Hj].
    + intros k t. keys; [discriminate|]. auto.
    + keys; [inversion H; subst; eapply Ho; eauto|eapply H5; eauto].
    + keys; [inversion H; subst; eapply Ho; eauto|eapply H5; eauto].
Qed.

Lemma w_release_ref w i : refs (w_release n w i) i = None.
Proof.
  unfold w_release. destruct (refs w i) as [k|] eqn:E; [|exact E].
  destruct (referred _ _ _); cbn; now rewrite Nat.eqb_refl.
Qed.
Lemma w_release_other w i j : j <> i -> refs (w_release n w i) j = refs w j.
Proof.
  intros N. unfold w_release. destruct (refs w i) as [k|] eqn:E; [|reflexivity].
  destruct (referred _ _ _); cbn; now rewrite (proj2 (Nat.eqb_neq _ _) N).
Qed.
Lemma w_release_none w i k : store w k = None -> store (w_release n w i) k = None.
Proof.
  intros H. unfold w_release. destruct (refs w i) as [x|]; [|exact H]. destruct (referred _ _ _); cbn; auto.
  destruct (key_eqb k x); auto.
Qed.

Lemma step_same p w used o : R p w used -> usual kindof n w used o ->
  snd (p_step kindof p o) = snd (w_step kindof n w o) /\
  R (fst (p_step kindof p o)) (fst (w_step kindof n w o)) (use kindof used o).
Proof.
  intros HR U. destruct o as [i name v m f|i|i|i|i|i]; cbn [p_step w_step use].
  - destruct U as (Hi & Hv & Hn). cbv zeta.
    replace (match kindof i with KSem => (v <=? 0)%Z | KEvent => false end) with false.
    2:{ destruct (kindof i); auto. specialize (Hv eq_refl). symmetry. apply Z.leb_gt. lia. }
    replace (match name with Some s => match store (w_release n w i) (Named (other_kind (kindof i)) s) with Some _ => true | None => false end | None => false end) with false.
    2:{ destruct name as [s|]; auto. destruct Hn as [Hn _]. now rewrite w_release_none. }
    cbn [orb snd fst]. split; [reflexivity|].
    change (match name with Some s => _ | None => used end) with (use kindof used (Create i name 0 false false)).
    apply R_attach; auto using R_release, w_release_ref.
    + unfold fresh. intros c q. destruct (kindof i); [|discriminate]. intros X. inversion X; subst. pose proof (u32_small v (Hv eq_refl)). lia.
    + intros s ->. intros X. destruct Hn as [_ Hn]. destruct (Hn X) as (j & Hj & N & Hr). exists j. now rewrite w_release_other.
  - cbn [fst snd]. split; [reflexivity|]. now apply R_release.
  - unfold try. rewrite (get_same p w used i HR). destruct (get w i) as [[k [c q|mm [|]]]|] eqn:G; cbn [fst snd]; auto.
    + apply get_ref in G. destruct G as [G1 G2]. destruct (N.eqb_spec c 0); cbn [fst snd]; auto. split; [reflexivity|].
      eapply R_set; eauto. intros c0 m0 X. inversion X; subst. destruct HR as (_ & _ & _ & _ & H5). apply H5 in G2. lia.
    + apply get_ref in G. destruct G as [G1 G2]. split; [reflexivity|]. eapply R_set; eauto. discriminate.
  - unfold p_unlock, w_unlock. rewrite (get_same p w used i HR). destruct (get w i) as [[k [c q|mm s]]|] eqn:G; cbn [fst snd]; auto.
    cbn [usual] in U. specialize (U k c q G). apply get_ref in G. destruct G as [G1 G2].
    assert (B : c <= q /\ q < 2147483648) by (destruct HR as (_ & _ & _ & _ & H5); apply H5 in G2; exact G2).
    rewrite (proj2 (N.ltb_lt _ _) U). rewrite N.mod_small by (unfold W32; lia).
    replace (q <? c + 1) with false by (symmetry; apply N.ltb_ge; lia). cbn [fst snd]. split; [reflexivity|].
    eapply R_set; eauto. intros c0 m0 X. inversion X; subst. lia.
  - unfold fire. rewrite (get_same p w used i HR). destruct (get w i) as [[k [c q|mm s]]|] eqn:G; cbn [fst snd]; auto.
    apply get_ref in G. destruct G as [G1 G2]. split; [reflexivity|]. eapply R_set; eauto. discriminate.
  - unfold p_reset, w_reset. rewrite (get_same p w used i HR). destruct (get w i) as [[k [c q|mm s]]|] eqn:G; cbn [fst snd]; auto.
    cbn [usual] in U. specialize (U k mm s G). subst mm. apply get_ref in G. destruct G as [G1 G2]. split; [reflexivity|].
    eapply R_set; eauto. discriminate.
Qed.

Lemma run_same : forall l p w used, R p w used -> usual_run kindof n w used l ->
  run (p_step kindof) p l = run (w_step kindof n) w l.
Proof.
  induction l as [|o l IH]; intros p w used HR U; [reflexivity|]. cbn [usual_run] in U. destruct U as [U1 U2].
  destruct (step_same p w used o HR U1) as [A B]. cbn [run].
  destruct (p_step kindof p o) as [p1 a]. destruct (w_step kindof n w o) as [w1 b]. cbn [fst snd] in *. subst. f_equal.
  eapply IH; eauto.
Qed.

Lemma R_start : R start start (fun _ _ => false).
Proof. repeat split; cbn; intros; try discriminate; congruence. Qed.

(** A way to compute whether a sequence of calls is a usual one. *)
Definition usualb (w : world) (used : kind -> N -> bool) (o : op) : bool :=
  match o with
  | Create i name v _ _ =>
      (i <? n)%nat && match kindof i with KSem => (0 <? v)%Z && (v <? 2147483648)%Z | KEvent => true end &&
      match name with
      | None => true
      | Some s =>
          match store w (Named (other_kind (kindof i)) s) with None => true | _ => false end &&
          (negb (used (kindof i) s) ||
           existsb (fun j => negb (j =? i)%nat && match refs w j with Some x => key_eqb x (Named (kindof i) s) | None => false end) (seq 0 n))
      end
  | Unlock i => match get w i with Some (_, OSem c m) => c <? m | _ => true end
  | Reset i => match get w i with Some (_, OEvent m _) => m | _ => true end
  | _ => true
  end.
Fixpoint usual_runb (w : world) (used : kind -> N -> bool) (l : list op) : bool :=
  match l with
  | [] => true
  | o :: r => usualb w used o && usual_runb (fst (w_step kindof n w o)) (use kindof used o) r
  end.
Lemma usualb_ok w used o : usualb w used o = true -> usual kindof n w used o.
Proof.
  destruct o as [i name v m f|i|i|i|i|i]; cbn [usualb usual]; auto.
  - rewrite !andb_true_iff. intros [[A B] C]. apply Nat.ltb_lt in A. split; [exact A|]. split.
    + intros K. rewrite K in B. apply andb_prop in B. destruct B as [B1 B2]. apply Z.ltb_lt in B1. apply Z.ltb_lt in B2. lia.
    + destruct name as [s|]; auto. apply andb_prop in C. destruct C as [C1 C2]. split.
      * destruct (store w (Named (other_kind (kindof i)) s)); [discriminate|reflexivity].
      * intros U. rewrite U in C2. cbn [negb orb] in C2. apply existsb_exists in C2. destruct C2 as (j & Hj & C2). apply in_seq in Hj.
        apply andb_prop in C2. destruct C2 as [C2 C3]. destruct (Nat.eqb_spec j i); [discriminate|].
        destruct (refs w j) as [x|] eqn:E; [|discriminate]. destruct (key_eqb_spec x (Named (kindof i) s)); [|discriminate].
        exists j. subst x. repeat split; auto. lia.
  - intros H k c m G. rewrite G in H. now apply N.ltb_lt.
  - intros H k m s G. now rewrite G in H.
Qed.
Lemma usual_runb_ok : forall l w used, usual_runb w used l = true -> usual_run kindof n w used l.
Proof.
  induction l as [|o l IH]; intros w used; cbn [usual_runb usual_run]; auto.
  intros H. apply andb_prop in H. destruct H. split; auto using usualb_ok.
Qed.
End Kinds.
