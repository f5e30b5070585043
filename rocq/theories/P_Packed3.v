(** The packed ordered hash model refines its specification: histories. *)
From Verif Require Import Base S_Seq S_Hash S_Packed M_Packed P_Dll P_List P_Hash P_Packed P_Packed2.
Local Arguments N.lor : simpl never.
Local Arguments N.land : simpl never.
Local Arguments N.of_nat : simpl never.
Local Arguments mark : simpl never.

Section P.
Context {V : Type}.
Context (dflt : V).
Implicit Types (s : pobj V) (A B : slots (V:=V)).

Lemma upd_mid {X} (l r : list X) x v : upd (l ++ x :: r) (length l) v = l ++ v :: r.
Proof. rewrite upd_app_r, Nat.sub_diag by lia. reflexivity. Qed.

(** ** The specification's own invariants *)
Lemma at_key_app A k v q p : at_key (A ++ [Some (k, v)]) q p <-> at_key A q p \/ (p = length A /\ q = k).
Proof.
  unfold at_key. destruct (Nat.lt_ge_cases p (length A)) as [L|L].
  - rewrite nth_error_app1 by auto. intuition lia.
  - rewrite nth_error_app2 by auto. rewrite (proj2 (nth_error_None A p)) by auto. split.
    + intros [w E]. destruct (p - length A) as [|z] eqn:Q; cbn in E; [|destruct z; discriminate].
      injection E as <- <-. right. split; auto. lia.
    + intros [[w E]|[-> ->]]; [discriminate|]. rewrite Nat.sub_diag. exists v. reflexivity.
Qed.
Lemma at_key_entries A k : (exists p, at_key A k p) <-> exists v, In (k, v) (entries A).
Proof.
  split.
  - intros (p & v & E). exists v. apply in_entries. eauto.
  - intros (v & I). apply in_entries in I as (p & E). exists p, v. auto.
Qed.
Lemma no_key_compact A k : no_key A k -> no_key (compact A) k.
Proof.
  intros H p Hp. assert (exists p, at_key (compact A) k p) as Q by eauto.
  apply at_key_entries in Q. rewrite entries_compact in Q. apply at_key_entries in Q as [q Q]. exact (H q Q).
Qed.

Lemma distinct_nodup A : distinct A <-> NoDup (map fst (entries A)).
Proof.
  induction A as [|o A IH].
  - cbn. split; [constructor|]. intros _ k [|p] q [v E]; discriminate.
  - destruct o as [[k v]|].
    + cbn [entries flat_map app map fst]. fold (entries A). rewrite NoDup_cons_iff, <- IH. split.
      * intros D. split.
        -- intros I. apply in_map_iff in I as ([k' w] & E & I). cbn in E. subst k'.
           apply in_entries in I as (p & E). assert (0 = S p); [|lia]. apply (D k); [exists v; reflexivity|exists w; exact E].
        -- intros k' p q Hp Hq. assert (S p = S q); [|lia]. apply (D k'); auto.
      * intros [N1 D] k' p q Hp Hq.
        assert (X : forall z, ~ at_key A k z).
        { intros z [w E]. apply N1. apply in_map_iff. exists (k, w). split; auto. apply in_entries. eauto. }
        destruct p as [|p], q as [|q]; auto.
        -- destruct Hp as [w Hp]. cbn in Hp. injection Hp as -> ->. destruct (X q Hq).
        -- destruct Hq as [w Hq]. cbn in Hq. injection Hq as -> ->. destruct (X p Hp).
        -- f_equal. apply (D k'); auto.
    + cbn [entries flat_map app]. fold (entries A). rewrite <- IH. split.
      * intros D k p q Hp Hq. assert (S p = S q); [|lia]. apply (D k); auto.
      * intros D k p q Hp Hq. destruct p as [|p]; [destruct Hp; discriminate|]. destruct q as [|q]; [destruct Hq; discriminate|].
        f_equal. apply (D k); auto.
Qed.
Lemma distinct_compact A : distinct A -> distinct (compact A).
Proof. rewrite !distinct_nodup. now rewrite entries_compact. Qed.
Lemma distinct_app A k v : distinct A -> no_key A k -> distinct (A ++ [Some (k, v)]).
Proof.
  intros D N q p p' H1 H2. apply at_key_app in H1 as [H1|[-> ->]], H2 as [H2|[-> H2]]; subst; auto.
  - eapply D; eauto.
  - destruct (N _ H1).
  - destruct (N _ H2).
Qed.
Lemma at_key_upd A p o k q : p < length A ->
  at_key (upd A p o) k q <-> (q <> p /\ at_key A k q) \/ (q = p /\ exists v, o = Some (k, v)).
Proof.
  intros L. unfold at_key. destruct (Nat.eq_dec q p) as [->|D].
  - rewrite upd_nth_same by auto. split; [intros [v E]; right; injection E as ->; eauto|].
    intros [[]|[_ [v ->]]]; [congruence|eauto].
  - rewrite upd_nth_other by auto. intuition congruence.
Qed.
Lemma at_key_lt A k p : at_key A k p -> p < length A.
Proof. intros [v E]. apply nth_error_Some. congruence. Qed.

Lemma distinct_step A c A' r : distinct A -> pstep dflt A c A' r -> distinct A'.
Proof.
  intros D S. destruct S; auto using distinct_compact.
  - pose proof (at_key_lt _ _ _ H). intros q x y H1 H2. apply at_key_upd in H1, H2; auto.
    destruct H1 as [[d1 h1]|[-> [w1 E1]]], H2 as [[d2 h2]|[-> [w2 E2]]]; auto.
    + eapply D; eauto.
    + injection E2 as -> ->. destruct d1. eapply D; eauto.
    + injection E1 as -> ->. destruct d2. eapply D; eauto.
  - apply distinct_app; destruct H0 as [->| ->]; auto using distinct_compact, no_key_compact.
  - apply distinct_app; destruct H0 as [->| ->]; auto using distinct_compact, no_key_compact.
  - pose proof (at_key_lt _ _ _ H). intros q x y H1 H2. apply at_key_upd in H1, H2; auto.
    destruct H1 as [[d1 h1]|[-> [w1 E1]]], H2 as [[d2 h2]|[-> [w2 E2]]]; auto; try discriminate. eapply D; eauto.
  - assert (p < length A) by (destruct H; apply nth_error_Some; congruence). intros q x y H1 H2. apply at_key_upd in H1, H2; auto.
    destruct H1 as [[d1 h1]|[-> [w1 E1]]], H2 as [[d2 h2]|[-> [w2 E2]]]; auto; try discriminate. eapply D; eauto.
Qed.

(** ** The relation *)
Definition PR s A : Prop :=
  PI (phfn s) (parr s) (phash s) (pnum s) (fun p => nth p A None) 0 /\ length (parr s) = length A /\
  (exists j, pnum s = 2 ^ j /\ j <= 30) /\ pused s = length (entries A) /\ distinct A.

Lemma PR_find s A k : PR s A -> key_ok k ->
  (forall p, at_key A k p -> pfind s k = Ok (Some p)) /\ (no_key A k -> pfind s k = Ok None).
Proof.
  intros (I & L & _ & _ & D) Hk.
  destruct (find_ok (phfn s) _ _ _ _ _ k I Hk) as (o & E & E1 & E2).
  { intros p q v w Hp Hq. apply (D k); apply at_key_nth; eauto. }
  unfold pfind. rewrite E. split.
  - intros p Hp. apply at_key_nth in Hp as [v Hp]. now rewrite (E1 _ _ Hp).
  - intros N. destruct o as [p|]; auto. destruct (E2 p eq_refl) as [v Q]. destruct (N p). apply at_key_nth. eauto.
Qed.

Lemma PR_size s A : PR s A -> length A <= pnum s /\ (N.of_nat (length A) <= 2 ^ 30)%N.
Proof.
  intros (((_ & _ & Sm & La & _) & _) & L & _). unfold small in Sm. change (2 ^ 30)%N with 1073741824%N. lia.
Qed.

Lemma upd_none_fun A p q : nth q (upd A p None) None = fupd (fun z => nth z A None) p None q.
Proof.
  destruct (Nat.eq_dec q p) as [->|D].
  - rewrite fupd_same. destruct (Nat.lt_ge_cases p (length A)) as [L|L].
    + apply nth_error_nth. rewrite upd_nth_same by auto. reflexivity.
    + apply nth_overflow. now rewrite upd_length.
  - rewrite fupd_other by auto.
    destruct (nth_error A q) as [o|] eqn:E.
    + rewrite (nth_error_nth _ _ _ E). apply nth_error_nth. rewrite upd_nth_other by auto. exact E.
    + apply nth_error_None in E. rewrite !nth_overflow; auto. now rewrite upd_length.
Qed.
Lemma upd_some_fun A p e q : p < length A -> nth q (upd A p (Some e)) None = fupd (fun z => nth z A None) p (Some e) q.
Proof.
  intros L. destruct (Nat.eq_dec q p) as [->|D].
  - rewrite fupd_same. apply nth_error_nth. rewrite upd_nth_same by auto. reflexivity.
  - rewrite fupd_other by auto.
    destruct (nth_error A q) as [o|] eqn:E.
    + rewrite (nth_error_nth _ _ _ E). apply nth_error_nth. rewrite upd_nth_other by auto. exact E.
    + apply nth_error_None in E. rewrite !nth_overflow; auto. now rewrite upd_length.
Qed.

Lemma entries_upd_none A p e : nth_error A p = Some (Some e) -> length (entries A) = S (length (entries (upd A p None))).
Proof.
  intros E. apply nth_error_split in E as (l & r & -> & <-). rewrite upd_mid.
  unfold entries. rewrite !flat_map_app. cbn. rewrite !app_length. cbn. lia.
Qed.

(** ** Unset *)
Lemma PR_unset s A p e : PR s A -> nth_error A p = Some (Some e) ->
  exists s', punset s (Some p) = Ok (s', true) /\ PR s' (upd A p None).
Proof.
  intros (I & L & J & U & D) E. pose proof E as E0. apply nth_Some in E0.
  destruct (PI_live _ _ _ _ _ _ _ _ I E0) as [Lp Gp]. unfold punset.
  destruct (rd_lt _ _ Lp) as (n & R & _). rewrite R. cbn [bind]. destruct (rd_g _ _ _ R) as [Rp _].
  rewrite <- Rp. apply N.eqb_neq in Gp. rewrite Gp.
  pose proof I as (F & C & Ct & Dd).
  destruct (unlink_node_ok _ _ _ _ p (hashpos (phfn s (key_bytes (fst e))) (pnum s)) F C) as (a' & H' & E1 & L1 & F1 & C1 & G1 & G2).
  { unfold fo. now rewrite E0. }
  rewrite E1. cbn [bind].
  destruct (modify_ok a' p (fun m => PNode NIL (pnext m) (pint m) None None)) as (n' & En & E2); [lia|].
  rewrite E2. cbn [bind].
  pose proof (entries_upd_none _ _ _ E) as Eu.
  replace (Nat.eqb (pused s) 0) with false by (symmetry; apply Nat.eqb_neq; lia).
  eexists; split; [reflexivity|]. split; cbn [phfn parr phash pnum pused].
  2:{ split; [rewrite !upd_length; lia|]. split; auto. split; [lia|].
      eapply distinct_step; [exact D|]. apply (S_UnsetAt dflt). exists e. exact E. }
  set (f' := fupd (fo (phfn s) (pnum s) (fun z => nth z A None)) p None) in *.
  assert (X : forall q, fo (phfn s) (pnum s) (fun z => nth z (upd A p None) None) q = f' q).
  { intros q. unfold f', fo. rewrite upd_none_fun. destruct (Nat.eq_dec q p) as [->|Dq]; [now rewrite !fupd_same|now rewrite !fupd_other]. }
  assert (Lp' : p < length a') by lia.
  split; [|split; [|split]].
  - eapply fits_ext; [|exact X]. destruct F1 as (f1 & f2 & f3 & f4 & f5). split; auto. split; auto. split; auto.
    rewrite upd_length. auto.
  - eapply chains_ext; [|exact X]. eapply pchains_frame; [exact C1| |auto]. intros q Hq.
    assert (q <> p) as Dq by (intros ->; apply Hq; apply fupd_same).
    rewrite gp_upd, gn_upd by auto. now rewrite !fupd_other.
  - intros q k v. rewrite upd_none_fun. destruct (Nat.eq_dec q p) as [->|Dq]; [rewrite fupd_same; discriminate|].
    rewrite fupd_other by auto. intros K. rewrite gd_upd, fupd_other by auto. rewrite G1. now apply Ct.
  - intros q _. rewrite upd_none_fun. rewrite gp_upd by auto. destruct (Nat.eq_dec q p) as [->|Dq]; [now rewrite !fupd_same|].
    rewrite !fupd_other by auto. intros K. rewrite G2; [apply Dd; auto; lia|]. now apply fo_None.
Qed.

Lemma PR_unset_none s A p : PR s A -> nth_error A p = Some None -> punset s (Some p) = Ok (s, false).
Proof.
  intros (I & L & _) E. assert (p < length (parr s)) as Lp by (rewrite L; apply nth_error_Some; congruence).
  unfold punset. destruct (rd_lt _ _ Lp) as (n & R & _). rewrite R. cbn [bind]. destruct (rd_g _ _ _ R) as [Rp _].
  destruct I as (_ & _ & _ & D). rewrite <- Rp, D; auto; [lia|]. now apply nth_error_nth.
Qed.

(** ** Optimize and resizing *)
Lemma PI_PR hf a H j m : PI hf a H (2 ^ j) (fun p => nth p (map Some m) None) 0 -> length a = length m -> j <= 30 ->
  NoDup (map fst m) -> PR (PObj hf a H (2 ^ j) (length m)) (map Some m).
Proof.
  intros I L Lj D. split; auto. cbn [phfn parr phash pnum pused]. rewrite map_length. split; auto. split; [eauto|].
  split; [now rewrite entries_some|]. apply distinct_nodup. now rewrite entries_some.
Qed.

Lemma PR_optimize s A : PR s A -> exists s', poptimize s = Ok (s', true) /\ PR s' (compact A) /\ pnum s' = pnum s.
Proof.
  intros R. pose proof R as (I & L & (j & Ej & Lj) & U & D). unfold poptimize.
  destruct (Nat.eqb_spec (length (parr s)) (pused s)) as [E|E].
  - exists s. split; auto. split; auto. rewrite compact_full; auto. lia.
  - pose proof (PI_reps _ _ _ _ _ I L) as Rp. pose proof (first_unset_ok _ _ _ Rp) as (f1 & f2 & f3 & f4 & f5).
    set (x := first_unset (parr s)) in *.
    assert (x < length A) as Lx by (destruct (Nat.eq_dec x (length A)) as [Q|Q]; [destruct (f5 Q); lia|lia]).
    assert (Ex : x = length (entries (firstn x A))).
    { rewrite <- (map_length Some), f3, firstn_length. lia. }
    destruct (opt_loop_ok (phfn s) (pnum s) A (length (parr s) - S x) (parr s) (phash s) x (S x) (fun p => nth p A None))
      as (a' & H' & E1 & L1 & g & I1 & G); auto; try lia.
    + destruct I as (i1 & i2 & i3 & i4). split; auto. split; auto. split; auto. intros p _. apply i4. lia.
    + now rewrite <- f2.
    + intros p Lp. rewrite <- f2. rewrite <- (firstn_skipn x A) at 1. rewrite <- f3 at 1.
      rewrite app_nth1 by (rewrite map_length; lia).
      destruct (nth_error (entries (firstn x A)) p) as [e|] eqn:Ee.
      * now apply nth_error_nth, map_nth_error.
      * apply nth_error_None in Ee. lia.
    + intros p Lp. replace p with x by lia. auto.
    + rewrite E1. cbn [bind]. eexists; split; [reflexivity|]. split; auto.
      assert (length (entries A) <= length a') as Q by (rewrite L1, L; apply entries_le).
      replace (firstn (pused s) (firstn (length (entries A)) a' ++ map wipe (skipn (length (entries A)) a')))
        with (firstn (length (entries A)) a').
      2:{ rewrite U, firstn_app, firstn_firstn, Nat.min_id. rewrite firstn_length, Nat.min_l by auto.
          rewrite Nat.sub_diag. cbn. now rewrite app_nil_r. }
      rewrite U. unfold compact. rewrite Ej in *. apply PI_PR; auto.
      * eapply PI_cut; eauto. now rewrite L1, L.
      * rewrite firstn_length. lia.
      * now apply distinct_nodup.
Qed.

Lemma PR_resize s A n i : PR s A -> n = 2 ^ i -> i <= 30 ->
  exists s' b, presize_to s n = Ok (s', b) /\ PR s' (if b then compact A else A) /\
    (pnum s < n -> b = true /\ n <= pnum s').
Proof.
  intros R -> Li. pose proof R as (I & L & (j & Ej & Lj) & U & D). unfold presize_to.
  pose proof (PR_size _ _ R) as [_ Q]. pose proof (entries_le A) as Q2.
  destruct (grow_pow (pused s) i) as (j' & E & L1 & L2 & L3); [lia|auto|]. rewrite E. cbn [bind].
  assert (Lp : 2 ^ i <= 2 ^ j') by (apply Nat.pow_le_mono_r; lia).
  destruct (Nat.eqb (2 ^ j') (pnum s) || ((2 ^ j' <? 512) && (2 ^ j' <? pnum s)))%bool eqn:B.
  - exists s, false. split; auto. split; auto. intros K. exfalso. apply orb_true_iff in B as [B|B].
    + apply Nat.eqb_eq in B. lia.
    + apply andb_true_iff in B as [_ B]. apply Nat.ltb_lt in B. lia.
  - destruct (rebuild_ok (phfn s) (2 ^ j') (parr s) A [] (repeat NIL (2 ^ j')) [] (PI_reps _ _ _ _ _ I L)) as (a' & H' & E1 & L4 & I1); auto.
    + eapply PI_ext; [apply PI_nil; auto|]. intros [|p]; reflexivity.
    + cbn. lia.
    + rewrite E1. cbn [bind]. eexists _, true; split; [reflexivity|]. cbn [length app] in *. rewrite U in *.
      rewrite firstn_all2 by lia. split; [|cbn [pnum]; auto]. unfold compact. apply PI_PR; auto.
      now apply distinct_nodup.
Qed.

Lemma PR_init hf n : (N.of_nat n <= 2 ^ 30)%N -> exists s, pinit hf n = Ok s /\ PR s [] /\ phfn s = hf.
Proof.
  intros L. unfold pinit, presize. destruct (grow_pow n 0 L) as (i & E & _ & _ & Li); [lia|].
  change (2 ^ 0) with 1 in E. rewrite E. cbn [bind]. unfold presize_to. cbn [pused grow].
  replace (2 ^ i <? 0) with false by (symmetry; apply Nat.ltb_ge; lia). cbn [bind pnum].
  destruct (pow_small i Li) as [_ P]. replace (Nat.eqb (2 ^ i) 0) with false by (symmetry; apply Nat.eqb_neq; lia).
  replace (2 ^ i <? 0) with false by (symmetry; apply Nat.ltb_ge; lia). rewrite andb_false_r. cbn [orb parr rebuild bind phfn firstn].
  eexists; split; [reflexivity|]. split; auto. apply (PI_PR hf [] (repeat NIL (2 ^ i)) i []); auto.
  - eapply PI_ext; [apply PI_nil; auto|]. intros [|p]; reflexivity.
  - constructor.
Qed.

(** ** Set *)
Lemma PR_append s A k v : PR s A -> length A < pnum s -> key_ok k -> no_key A k ->
  exists a H, attach_new (parr s) (phash s) (pnum s) (phfn s (key_bytes k)) (ki (phfn s) k) (ks k) (Some v) = Ok (a, H) /\
   PR (PObj (phfn s) a H (pnum s) (S (pused s))) (A ++ [Some (k, v)]).
Proof.
  intros (I & L & J & U & D) Lp Hk N.
  destruct (PI_attach (phfn s) _ _ _ _ k v I) as (a & H & E & L1 & I1); [lia|auto|].
  exists a, H. split; auto. split; cbn [phfn parr phash pnum pused].
  - eapply PI_ext; [exact I1|]. intros p. cbn beta. destruct (Nat.eq_dec p (length (parr s))) as [->|Dp].
    + rewrite fupd_same, app_nth2 by lia. now rewrite L, Nat.sub_diag.
    + rewrite fupd_other by auto. destruct (Nat.lt_ge_cases p (length A)) as [Q|Q]; [now apply app_nth1|].
      rewrite !nth_overflow; auto. rewrite app_length; cbn; lia.
  - rewrite app_length. cbn. split; [lia|]. split; auto. split; [|now apply distinct_app].
    rewrite entries_app, app_length. cbn. lia.
Qed.

Lemma PR_touch_new s A k : PR s A -> key_ok k -> (N.of_nat (length A) < 2 ^ 30)%N -> no_key A k ->
  exists s' B, ptouch dflt s k = Ok (s', length B) /\ PR s' (B ++ [Some (k, dflt)]) /\ (B = A \/ B = compact A).
Proof.
  intros R Hk Lk N. unfold ptouch. rewrite (proj2 (PR_find _ _ _ R Hk) N). cbn [bind].
  assert (exists s1 B b, (if Nat.eqb (length (parr s)) (pnum s) then pauto s else Ok (s, false)) = Ok (s1, b) /\
    PR s1 B /\ length B < pnum s1 /\ phfn s1 = phfn s /\ (B = A \/ B = compact A)) as (s1 & B & b & E & R1 & L1 & Eh & EB).
  { pose proof (PR_size _ _ R) as [Q _]. pose proof R as (I & L & (j & Ej & Lj) & U & D).
    destruct (Nat.eqb_spec (length (parr s)) (pnum s)) as [El|El].
    2:{ exists s, A, false. split; auto. split; auto. split; [lia|]. auto. }
    unfold pauto. pose proof (entries_le A) as Le.
    destruct (Nat.ltb_spec (pused s) (pnum s - pnum s / 10)) as [K|K].
    - destruct (PR_optimize s A R) as (s' & E & R' & En). exists s', (compact A), true.
      split; auto. split; auto. rewrite compact_length, En. split; [lia|]. split; auto.
      unfold poptimize in E. destruct (Nat.eqb (length (parr s)) (pused s)); [now injection E as <-|].
      destruct (opt_loop _ _ _ _ _) as [[[a1 H1] x1]| |]; try discriminate. cbn [bind] in E. now injection E as <-.
    - destruct (Nat.ltb_spec (pused s) (8 * pnum s / 10)) as [K2|K2]; [exfalso; dlia|].
      rewrite El, Nat.eqb_refl.
      assert (j < 30) as Lj' by (apply pow_lt30; lia).
      destruct (PR_resize s A (2 * pnum s) (S j) R) as (s' & b & E & R' & B1); [rewrite Ej; reflexivity|lia|].
      destruct (pow_small j Lj) as [_ P].
      destruct B1 as [-> B1]; [lia|]. exists s', (compact A), true. split; auto. split; auto.
      rewrite compact_length. split; [lia|]. split; auto.
      unfold presize_to in E. destruct (grow _ _ _) as [z| |]; try discriminate. cbn [bind] in E.
      destruct (_ || _)%bool; [now injection E as <-|].
      destruct (rebuild _ _ _ _ _) as [[a1 H1]| |]; try discriminate. cbn [bind] in E. now injection E as <-. }
  rewrite E. cbn [bind].
  assert (N1 : no_key B k) by (destruct EB as [->| ->]; auto using no_key_compact).
  destruct (PR_append s1 B k dflt R1 L1 Hk N1) as (a & H & E1 & R2). rewrite Eh in E1.
  destruct k as [z|bs]; cbn [ki ks key_bytes] in *; rewrite E1; cbn [bind]; rewrite Eh in R2.
  - rewrite (proj1 (proj2 R1)), Eh. eexists _, B. split; [reflexivity|]. auto.
  - rewrite (proj1 (proj2 R1)), Eh. eexists _, B. split; [reflexivity|]. auto.
Qed.

Lemma PR_setval s A k v w p : PR s A -> nth_error A p = Some (Some (k, w)) ->
  exists a, modify (parr s) p (set_val (Some v)) = Ok a /\
   PR (PObj (phfn s) a (phash s) (pnum s) (pused s)) (upd A p (Some (k, v))).
Proof.
  intros (I & L & J & U & D) E. pose proof E as E0. apply nth_Some in E0.
  destruct (PI_live _ _ _ _ _ _ _ _ I E0) as [Lp Gp].
  destruct (modify_ok (parr s) p (set_val (Some v)) Lp) as (n & En & E1). rewrite E1. eexists; split; [reflexivity|].
  assert (LA : p < length A) by lia.
  split; cbn [phfn parr phash pnum pused].
  2:{ split; [now rewrite !upd_length|]. split; auto. split.
      - rewrite U. apply nth_error_split in E as (l & r & -> & <-). rewrite upd_mid. unfold entries.
        rewrite !flat_map_app. cbn. rewrite !app_length. cbn. lia.
      - eapply distinct_step; [exact D|]. apply (S_Set dflt). exists w. exact E. }
  destruct I as (F & C & Ct & Dd).
  assert (X : forall q, fo (phfn s) (pnum s) (fun z => nth z (upd A p (Some (k, v))) None) q =
     fo (phfn s) (pnum s) (fun z => nth z A None) q).
  { intros q. unfold fo. rewrite upd_some_fun by auto. destruct (Nat.eq_dec q p) as [->|Dq]; [now rewrite fupd_same, E0|now rewrite fupd_other]. }
  assert (Gpn : gp (parr s) p = pprev n /\ gn (parr s) p = pnext n) by (unfold gp, gn; now rewrite En).
  destruct Gpn as [Gn1 Gn2].
  assert (Y : forall q, gp (upd (parr s) p (set_val (Some v) n)) q = gp (parr s) q /\ gn (upd (parr s) p (set_val (Some v) n)) q = gn (parr s) q).
  { intros q. rewrite gp_upd, gn_upd by auto. destruct (Nat.eq_dec q p) as [->|Dq]; [rewrite !fupd_same; auto|now rewrite !fupd_other]. }
  split; [|split; [|split]].
  - eapply fits_ext; [|exact X]. destruct F as (f1 & f2 & f3 & f4 & f5). split; auto. split; auto. split; auto. rewrite upd_length. auto.
  - eapply pchains_frame; [exact C|intros q _; apply Y|exact X].
  - intros q k' v'. rewrite upd_some_fun by auto. rewrite gd_upd by auto. destruct (Nat.eq_dec q p) as [->|Dq].
    + rewrite !fupd_same. intros [= <- <-]. destruct (Ct _ _ _ E0) as [c1 c2]. split; auto. unfold gd in c1. rewrite En in c1.
      cbn in c1. injection c1 as c3 c4 c5. cbn. now rewrite c3, c4.
    + rewrite !fupd_other by auto. apply Ct.
  - intros q _. rewrite upd_some_fun by auto. rewrite (proj1 (Y q)). destruct (Nat.eq_dec q p) as [->|Dq]; [rewrite fupd_same; discriminate|].
    rewrite fupd_other by auto. apply Dd. lia.
Qed.

(** ** Iteration *)
Lemma set_at_live s A p : PR s A -> set_at s p = true <-> live A p.
Proof.
  intros (I & L & _). unfold set_at, live. destruct (nth_error A p) as [[e|]|] eqn:E.
  - assert (nth p A None = Some e) as E0 by now apply nth_Some.
    destruct (PI_live _ _ _ _ _ _ _ _ I E0) as [Lp Gp]. unfold gp in Gp.
    destruct (nth_error (parr s) p) as [n|]; [|congruence]. apply N.eqb_neq in Gp. rewrite Gp. split; eauto.
  - destruct I as (_ & _ & _ & D). assert (gp (parr s) p = NIL) as G by (apply D; [lia|now apply nth_error_nth]).
    unfold gp in G. destruct (nth_error (parr s) p) as [n|]; [rewrite G|]; split; try discriminate; intros [e Q]; discriminate.
  - assert (nth_error (parr s) p = None) as -> by (apply nth_error_None; rewrite L; now apply nth_error_None).
    split; [discriminate|]. intros [e Q]; discriminate.
Qed.
Lemma not_live s A p : PR s A -> set_at s p = false -> ~ live A p.
Proof. intros R E Q. apply (set_at_live s A p R) in Q. congruence. Qed.
Lemma live_lt A p : live A p -> p < length A.
Proof. intros [e E]. apply nth_error_Some. congruence. Qed.

Lemma next_loop_ok s A : PR s A -> forall cnt q, q + cnt = length A ->
  match next_loop cnt s q with
  | (Some x, y) => x = y /\ q <= x /\ live A x /\ (forall r, q <= r < x -> ~ live A r)
  | (None, y) => y = length A /\ forall r, q <= r -> ~ live A r
  end.
Proof.
  intros R. induction cnt as [|c IH]; intros q E; cbn [next_loop].
  - split; [lia|]. intros r Lr Q. apply live_lt in Q. lia.
  - destruct (set_at s q) eqn:Es.
    + split; auto. split; auto. split; [now apply (set_at_live s A q R)|]. intros r Lr. lia.
    + specialize (IH (S q)). destruct (next_loop c s (S q)) as [[x|] y].
      * destruct IH as (h1 & h2 & h3 & h4); [lia|]. split; auto. split; [lia|]. split; auto. intros r Lr.
        destruct (Nat.eq_dec r q) as [->|Dr]; [now apply (not_live s A q R)|]. apply h4. lia.
      * destruct IH as (h1 & h2); [lia|]. split; auto. intros r Lr.
        destruct (Nat.eq_dec r q) as [->|Dr]; [now apply (not_live s A q R)|]. apply h2. lia.
Qed.
Lemma prev_loop_ok s A : PR s A -> forall p,
  match prev_loop s p with
  | (Some x, y) => x = y /\ x < p /\ live A x /\ (forall r, x < r < p -> ~ live A r)
  | (None, y) => y = length A /\ forall r, r < p -> ~ live A r
  end.
Proof.
  intros R. induction p as [|p IH]; cbn [prev_loop].
  - split; [apply R|]. lia.
  - destruct (set_at s p) eqn:Es.
    + split; auto. split; auto. split; [now apply (set_at_live s A p R)|]. intros r Lr. lia.
    + destruct (prev_loop s p) as [[x|] y].
      * destruct IH as (h1 & h2 & h3 & h4). split; auto. split; [lia|]. split; auto. intros r Lr.
        destruct (Nat.eq_dec r p) as [->|Dr]; [now apply (not_live s A p R)|]. apply h4. lia.
      * destruct IH as (h1 & h2). split; auto. intros r Lr.
        destruct (Nat.eq_dec r p) as [->|Dr]; [now apply (not_live s A p R)|]. apply h2. lia.
Qed.

(** ** Every call *)
Lemma sim_pstep s A c : PR s A -> plegal A c ->
  exists s' A' r, pexec dflt s c = Ok (s', r) /\ pstep dflt A c A' r /\ PR s' A'.
Proof.
  intros R Hc. destruct c as [k v|k|k|p| |n|k|p|p|p]; cbn [pexec plegal] in *.
  - destruct Hc as [Hk Hl]. destruct (key_dec A k) as [[p Hp]|N].
    + unfold pset, ptouch. rewrite (proj1 (PR_find _ _ _ R Hk) p Hp). cbn [bind].
      destruct Hp as [w Hp]. destruct (PR_setval s A k v w p R Hp) as (a & E & R'). rewrite E. cbn [bind].
      eexists _, _, _; split; [reflexivity|]. split; [|exact R']. constructor. now exists w.
    + destruct (PR_touch_new s A k R Hk Hl N) as (s1 & B & E & R1 & EB). unfold pset. rewrite E. cbn [bind].
      destruct (PR_setval s1 (B ++ [Some (k, dflt)]) k v dflt (length B) R1) as (a & E2 & R').
      { rewrite nth_error_app2, Nat.sub_diag by lia. reflexivity. }
      rewrite E2. cbn [bind]. eexists _, _, _; split; [reflexivity|]. split; [|exact R'].
      rewrite upd_mid. now constructor.
  - destruct Hc as [Hk Hl]. destruct (key_dec A k) as [[p Hp]|N].
    + unfold ptouch. rewrite (proj1 (PR_find _ _ _ R Hk) p Hp). cbn [bind].
      eexists _, _, _; split; [reflexivity|]. split; [|exact R]. now constructor.
    + destruct (PR_touch_new s A k R Hk Hl N) as (s1 & B & E & R1 & EB). rewrite E. cbn [bind].
      eexists _, _, _; split; [reflexivity|]. split; [|exact R1]. now constructor.
  - destruct (key_dec A k) as [[p Hp]|N].
    + rewrite (proj1 (PR_find _ _ _ R Hc) p Hp). cbn [bind]. pose proof Hp as [w Hp'].
      destruct (PR_unset s A p _ R Hp') as (s' & E & R'). rewrite E. cbn [bind].
      eexists _, _, _; split; [reflexivity|]. split; [|exact R']. now constructor.
    + rewrite (proj2 (PR_find _ _ _ R Hc) N). cbn [bind punset].
      eexists _, _, _; split; [reflexivity|]. split; [|exact R]. now constructor.
  - destruct (nth_error A p) as [[e|]|] eqn:E.
    + destruct (PR_unset s A p _ R E) as (s' & E' & R'). rewrite E'. cbn [bind].
      eexists _, _, _; split; [reflexivity|]. split; [|exact R']. constructor. now exists e.
    + rewrite (PR_unset_none s A p R E). cbn [bind]. eexists _, _, _; split; [reflexivity|]. split; [|exact R]. now constructor.
    + apply nth_error_None in E. lia.
  - destruct (PR_optimize s A R) as (s' & E & R' & _). rewrite E. cbn [bind].
    eexists _, _, _; split; [reflexivity|]. split; [|exact R']. constructor.
  - unfold presize. destruct (grow_pow n 0 Hc) as (i & E & _ & _ & Li); [lia|]. change (2 ^ 0) with 1 in E. rewrite E. cbn [bind].
    destruct (PR_resize s A (2 ^ i) i R eq_refl Li) as (s' & b & E1 & R' & _). rewrite E1. cbn [bind].
    eexists _, _, _; split; [reflexivity|]. split; [|exact R']. destruct b; constructor.
  - destruct (key_dec A k) as [[p Hp]|N].
    + rewrite (proj1 (PR_find _ _ _ R Hc) p Hp). cbn [bind]. eexists _, _, _; split; [reflexivity|]. split; [|exact R]. now constructor.
    + rewrite (proj2 (PR_find _ _ _ R Hc) N). cbn [bind]. eexists _, _, _; split; [reflexivity|]. split; [|exact R]. now constructor.
  - unfold pget. destruct (set_at s p) eqn:Es; cbn [negb].
    + apply (set_at_live s A p R) in Es. pose proof (live_lt _ _ Es) as Lp.
      replace (length (parr s) <=? p) with false by (symmetry; apply Nat.leb_gt; rewrite (proj1 (proj2 R)); auto).
      cbn [orb]. eexists _, _, _; split; [reflexivity|]. split; [|exact R]. now constructor.
    + rewrite orb_true_r. eexists _, _, _; split; [reflexivity|]. split; [|exact R]. constructor. now apply (not_live s A p R).
  - unfold pnext_pos. rewrite (proj1 (proj2 R)).
    pose proof (next_loop_ok s A R) as K.
    set (q := if length A <=? p then 0 else S p).
    assert (Eq : q = if p <? length A then S p else 0).
    { unfold q. rewrite Nat.leb_antisym. destruct (p <? length A); reflexivity. }
    assert (Lq : q <= length A) by (unfold q; destruct (Nat.leb_spec (length A) p); lia).
    specialize (K (length A - q) q). destruct (next_loop (length A - q) s q) as [[x|] y].
    + destruct K as (-> & h2 & h3 & h4); [lia|]. eexists _, _, _; split; [reflexivity|]. split; [|exact R]. eapply S_Next; eauto.
    + destruct K as (-> & h2); [lia|]. eexists _, _, _; split; [reflexivity|]. split; [|exact R]. eapply S_NextNone; eauto.
  - unfold pprev_pos. rewrite (proj1 (proj2 R)).
    pose proof (prev_loop_ok s A R (if length A <? p then length A else p)) as K.
    destruct (prev_loop s _) as [[x|] y].
    + destruct K as (-> & h2 & h3 & h4). eexists _, _, _; split; [reflexivity|]. split; [|exact R].
      destruct (Nat.ltb_spec (length A) p); apply S_Prev; auto; try lia.
      intros r Lr Q. pose proof (live_lt _ _ Q). apply (h4 r); auto; lia.
    + destruct K as (-> & h2). eexists _, _, _; split; [reflexivity|]. split; [|exact R].
      constructor. intros r Lr Q. pose proof (live_lt _ _ Q). apply (h2 r); auto. destruct (Nat.ltb_spec (length A) p); lia.
Qed.

Lemma sim_prun cs : forall s A, PR s A -> plegal_run dflt A cs ->
  exists s' A' rs, prun dflt s cs = Ok (s', rs) /\ psteps dflt A cs A' rs /\ PR s' A'.
Proof.
  induction cs as [|c cs IH]; intros s A R Hl; cbn [prun].
  - exists s, A, []. split; auto. split; auto. constructor.
  - destruct Hl as [Hc Hl]. destruct (sim_pstep s A c R Hc) as (s1 & A1 & r & E & S1 & R1). rewrite E. cbn [bind].
    destruct (IH s1 A1 R1 (Hl _ _ S1)) as (s2 & A2 & rs & E2 & S2 & R2). rewrite E2. cbn [bind].
    eexists _, _, _; split; [reflexivity|]. split; [econstructor; eauto|exact R2].
Qed.
End P.

Section Q.
Context {V : Type}.
Context (dflt : V).
Implicit Types (s : pobj V) (A B : slots (V:=V)) (m : assoc (V:=V)).

(** ** The map *)
Lemma mget_in m k : mget m k = None <-> ~ In k (map fst m).
Proof.
  unfold mget. induction m as [|[k' v] m IH]; cbn [List.find map fst In]; [tauto|].
  destruct (key_eqb k' k) eqn:E.
  - apply key_eqb_eq in E as ->. split; [discriminate|tauto].
  - rewrite IH. assert (k' <> k) by (intros ->; rewrite key_eqb_refl in E; discriminate). tauto.
Qed.
Lemma existsb_key m k : existsb (fun e => key_eqb (fst e) k) m = true <-> In k (map fst m).
Proof.
  rewrite existsb_exists, in_map_iff. split.
  - intros (e & I & E). apply key_eqb_eq in E. eauto.
  - intros (e & <- & I). exists e. split; auto. apply key_eqb_refl.
Qed.
Lemma mset_mid (l r : assoc (V:=V)) k (w v : V) : ~ In k (map fst l) -> ~ In k (map fst r) ->
  mset (l ++ (k, w) :: r) k v = l ++ (k, v) :: r.
Proof.
  intros Nl Nr. unfold mset.
  replace (existsb _ _) with true.
  2:{ symmetry. apply existsb_key. rewrite map_app. apply in_or_app. right. now left. }
  assert (X : forall m : assoc (V:=V), ~ In k (map fst m) -> map (fun e => if key_eqb (fst e) k then (k, v) else e) m = m).
  { induction m as [|[k' u] m IH]; cbn [map fst]; auto. intros N. destruct (key_eqb k' k) eqn:E.
    - apply key_eqb_eq in E as ->. destruct N. now left.
    - rewrite IH; auto. intros Q. apply N. now right. }
  rewrite map_app. cbn [map fst]. rewrite key_eqb_refl, !X; auto.
Qed.
Lemma mset_new m k v : ~ In k (map fst m) -> mset m k v = m ++ [(k, v)].
Proof.
  intros N. unfold mset. destruct (existsb _ m) eqn:E; auto. apply existsb_key in E. tauto.
Qed.
Lemma mremove_notin m k : ~ In k (map fst m) -> mremove m k = m.
Proof.
  unfold mremove. induction m as [|[k' u] m IH]; cbn [filter map fst]; auto. intros N. destruct (key_eqb k' k) eqn:E.
  - apply key_eqb_eq in E as ->. destruct N. now left.
  - cbn [negb]. rewrite IH; auto. intros Q. apply N. now right.
Qed.
Lemma mremove_mid (l r : assoc (V:=V)) k (w : V) : ~ In k (map fst l) -> ~ In k (map fst r) -> mremove (l ++ (k, w) :: r) k = l ++ r.
Proof.
  intros Nl Nr. unfold mremove. rewrite filter_app. cbn [filter fst]. rewrite key_eqb_refl. cbn [negb].
  fold (mremove l k) (mremove r k). now rewrite !mremove_notin.
Qed.
Lemma split_at A p k v : distinct A -> nth_error A p = Some (Some (k, v)) ->
  exists l r, A = l ++ Some (k, v) :: r /\ p = length l /\ ~ In k (map fst (entries l)) /\ ~ In k (map fst (entries r)).
Proof.
  intros D E. apply nth_error_split in E as (l & r & -> & <-). exists l, r. split; auto. split; auto.
  apply distinct_nodup in D. rewrite entries_app in D. cbn [entries flat_map app] in D. fold (entries r) in D.
  rewrite map_app in D. cbn [map fst] in D. apply NoDup_mid in D. tauto.
Qed.
Lemma no_key_in A k : no_key A k <-> ~ In k (map fst (entries A)).
Proof.
  rewrite in_map_iff. split.
  - intros N ([k' v] & E & I). cbn in E. subst k'. destruct (proj2 (at_key_entries A k)) as [p Q]; eauto. exact (N p Q).
  - intros N p Hp. apply N. destruct (proj1 (at_key_entries A k)) as [v Q]; [eauto|]. exists (k, v). auto.
Qed.

Lemma pstep_map A c A' r : distinct A -> pstep dflt A c A' r -> entries A' = mupdate dflt A c.
Proof.
  intros D S. destruct S; cbn [mupdate]; auto using entries_compact.
  - destruct H as [w H]. destruct (split_at A p k w D H) as (l & r & -> & -> & Nl & Nr).
    rewrite upd_mid, !entries_app. cbn [entries flat_map app]. fold (entries r). now rewrite mset_mid.
  - apply no_key_in in H. rewrite mset_new by auto. rewrite entries_app. cbn. f_equal.
    destruct H0 as [->| ->]; auto using entries_compact.
  - destruct (mget (entries A) k) eqn:E; auto. apply mget_in, no_key_in in E. destruct (E _ H).
  - apply no_key_in, mget_in in H. rewrite H, entries_app. cbn. f_equal. destruct H0 as [->| ->]; auto using entries_compact.
  - destruct H as [w H]. destruct (split_at A p k w D H) as (l & r & -> & -> & Nl & Nr).
    rewrite upd_mid, !entries_app. cbn [entries flat_map app]. fold (entries r). now rewrite mremove_mid.
  - apply no_key_in in H. now rewrite mremove_notin.
  - destruct H as [[k w] H]. rewrite H. destruct (split_at A p k w D H) as (l & r & -> & -> & Nl & Nr).
    rewrite upd_mid, !entries_app. cbn [entries flat_map app]. fold (entries r). now rewrite mremove_mid.
  - now rewrite H.
Qed.
Lemma psteps_map A cs A' rs : distinct A -> psteps dflt A cs A' rs -> Forall by_key cs ->
  entries A' = fold_left (mcall dflt) cs (entries A).
Proof.
  intros D S. induction S as [A|A c B x cs C xs S1 S IH]; intros F; auto.
  cbn [fold_left]. rewrite IH; [|eapply distinct_step; eauto|now inversion F]. f_equal.
  rewrite (pstep_map _ _ _ _ D S1). apply Forall_inv in F. destruct c; try reflexivity. destruct F.
Qed.
Lemma psteps_distinct A cs A' rs : distinct A -> psteps dflt A cs A' rs -> distinct A'.
Proof. intros D S. induction S; auto. apply IHS. eapply distinct_step; eauto. Qed.

Lemma PR_holds s A p k v : PR s A -> nth_error A p = Some (Some (k, v)) -> holds_at s p k v.
Proof.
  intros (I & L & _) E. apply nth_Some in E. destruct I as (_ & _ & Ct & _). destruct (Ct _ _ _ E) as [G _].
  unfold gd in G. destruct (nth_error (parr s) p) as [n|] eqn:En; [|discriminate]. cbn in G. injection G as g1 g2 g3.
  exists n. split; auto. split; auto. destruct k; cbn in *; auto.
Qed.

Lemma mget_entries A k p v : distinct A -> nth_error A p = Some (Some (k, v)) -> mget (entries A) k = Some v.
Proof.
  intros D E. destruct (split_at A p k v D E) as (l & r & -> & -> & Nl & Nr).
  rewrite entries_app. cbn [entries flat_map app]. fold (entries r). unfold mget.
  induction (entries l) as [|[k' u] m IH]; cbn [app List.find fst].
  - now rewrite key_eqb_refl.
  - destruct (key_eqb k' k) eqn:Ek.
    + apply key_eqb_eq in Ek as ->. destruct Nl. now left.
    + apply IH. intros Q. apply Nl. now right.
Qed.

(** ** Iteration *)
Lemma next_loop_seq s cnt : forall q, next_loop cnt s q =
  match filter (set_at s) (seq q cnt) with p :: _ => (Some p, p) | [] => (None, q + cnt) end.
Proof.
  induction cnt as [|c IH]; intros q; cbn [next_loop seq filter]; [now rewrite Nat.add_0_r|].
  destruct (set_at s q); auto. rewrite IH. rewrite Nat.add_succ_r. reflexivity.
Qed.
Lemma filter_seq_head (f : nat -> bool) cnt : forall q p r, filter f (seq q cnt) = p :: r ->
  q <= p < q + cnt /\ r = filter f (seq (S p) (q + cnt - S p)).
Proof.
  induction cnt as [|c IH]; intros q p r E; cbn [seq filter] in E; [discriminate|].
  destruct (f q) eqn:F.
  - injection E as <- <-. split; [lia|]. f_equal. f_equal. lia.
  - apply IH in E as [L ->]. split; [lia|]. f_equal. f_equal. lia.
Qed.
Lemma walk_next s n : forall q pos, q <= length (parr s) ->
  pnext_pos s pos = next_loop (length (parr s) - q) s q ->
  length (filter (set_at s) (seq q (length (parr s) - q))) < n ->
  pwalk (pnext_pos s) n pos = (filter (set_at s) (seq q (length (parr s) - q)), Some (length (parr s))).
Proof.
  induction n as [|n IH]; intros q pos Lq E Ln; [lia|]. cbn [pwalk]. rewrite E, next_loop_seq.
  destruct (filter (set_at s) (seq q (length (parr s) - q))) as [|p r] eqn:Ef.
  - f_equal. f_equal. lia.
  - apply filter_seq_head in Ef as [Lp ->].
    replace (q + (length (parr s) - q) - S p) with (length (parr s) - S p) in * by lia.
    rewrite (IH (S p) p); auto; [lia| |].
    + unfold pnext_pos. replace (length (parr s) <=? p) with false; auto. symmetry. apply Nat.leb_gt. lia.
    + cbn in Ln. lia.
Qed.
Lemma prev_loop_seq s p : prev_loop s p =
  match rev (filter (set_at s) (seq 0 p)) with x :: _ => (Some x, x) | [] => (None, length (parr s)) end.
Proof.
  induction p as [|p IH]; auto. rewrite seq_S, filter_app, rev_app_distr. cbn [prev_loop filter Nat.add].
  destruct (set_at s p); auto.
Qed.
Lemma filter_seq_last (f : nat -> bool) p : forall x r, rev (filter f (seq 0 p)) = x :: r ->
  x < p /\ r = rev (filter f (seq 0 x)).
Proof.
  induction p as [|p IH]; intros x r E; [discriminate|].
  rewrite seq_S, filter_app, rev_app_distr in E. cbn [filter Nat.add] in E. destruct (f p).
  - cbn in E. injection E as <- <-. auto.
  - cbn in E. apply IH in E. intuition lia.
Qed.
Lemma walk_prev s n : forall p, p <= length (parr s) -> length (filter (set_at s) (seq 0 p)) < n ->
  pwalk (pprev_pos s) n p = (rev (filter (set_at s) (seq 0 p)), Some (length (parr s))).
Proof.
  induction n as [|n IH]; intros p Lp Ln; [lia|]. cbn [pwalk]. unfold pprev_pos at 1.
  replace (length (parr s) <? p) with false by (symmetry; apply Nat.ltb_ge; lia). rewrite prev_loop_seq.
  rewrite <- rev_length in Ln.
  destruct (rev (filter (set_at s) (seq 0 p))) as [|x r] eqn:Ef; auto.
  apply filter_seq_last in Ef as [Lx ->]. rewrite IH; auto; [lia|]. cbn in Ln. rewrite rev_length in Ln. lia.
Qed.
Lemma positions_set s A : PR s A -> filter (set_at s) (seq 0 (length (parr s))) = positions A.
Proof.
  intros R. unfold positions. rewrite (proj1 (proj2 R)). apply filter_ext. intros p.
  pose proof (set_at_live s A p R) as K. unfold live in K. destruct (nth p A None) as [e|] eqn:E.
  - apply K. exists e. now apply nth_Some.
  - destruct (set_at s p); auto. destruct K as [[e K] _]; auto. apply nth_Some in K. congruence.
Qed.
Lemma positions_entries A : map (fun p => nth p A None) (positions A) = map Some (entries A).
Proof.
  unfold positions. induction A as [|o A IH] using rev_ind; auto.
  rewrite app_length. cbn [length]. rewrite Nat.add_1_r, seq_S, filter_app, map_app, entries_app, map_app.
  cbn [filter Nat.add]. rewrite app_nth2, Nat.sub_diag by lia. cbn [nth]. f_equal.
  - rewrite <- IH. erewrite filter_ext_in; [apply map_ext_in|].
    + intros p I. apply filter_In in I as [I _]. apply in_seq in I. apply app_nth1. lia.
    + intros p I. apply in_seq in I. rewrite app_nth1 by lia. reflexivity.
  - destruct o as [e|]; auto. cbn. now rewrite app_nth2, Nat.sub_diag by lia.
Qed.

(** ** Copying *)
Lemma copy_loop_UB (sz src e : N) (src_nodes : list (pnode V)) : forall k i dst fuel,
  i + k = length src_nodes -> k < fuel ->
  (forall j, j <= length src_nodes -> (src + N.of_nat j * sz)%N <> e) ->
  copy_loop fuel sz src e src_nodes dst i = UB.
Proof.
  induction k as [|k IH]; intros i dst [|f] L Lf N; try lia; cbn [copy_loop].
  - replace (N.eqb _ _) with false by (symmetry; apply N.eqb_neq, N; lia).
    unfold rd. now rewrite (proj2 (nth_error_None _ _)) by lia.
  - replace (N.eqb _ _) with false by (symmetry; apply N.eqb_neq, N; lia).
    destruct (rd_lt src_nodes i) as (n & R & _); [lia|]. rewrite R. cbn [bind]. apply IH; auto; lia.
Qed.
End Q.
