(** The packed ordered hash model refines its specification. *)
From Verif Require Import Base S_Seq S_Hash S_Packed M_Packed P_Dll P_List P_Hash.

(** ** Index arithmetic *)
Definition mark (s : nat) : N := N.lor 2147483648 (N.of_nat s).
Local Arguments N.lor : simpl never.
Local Arguments N.land : simpl never.
Local Arguments N.of_nat : simpl never.
Local Arguments mark : simpl never.
Definition small (n : N) : Prop := (n < 1073741824)%N.

Lemma land_pow2_high x : (x < 2147483648)%N -> N.land x 2147483648 = 0%N.
Proof.
  intros H. apply N.bits_inj_0. intros n. rewrite N.land_spec. change 2147483648%N with (2 ^ 31)%N.
  rewrite N.pow2_bits_eqb. destruct (N.eqb_spec 31 n) as [<-|]; [|now rewrite andb_false_r].
  rewrite andb_true_r. destruct (N.eq_dec x 0) as [->|]; [reflexivity|]. apply N.bits_above_log2. apply N.log2_lt_pow2; lia.
Qed.

Lemma mark_high s : small (N.of_nat s) -> N.land (mark s) 2147483648 = 2147483648%N.
Proof.
  intros H. unfold mark. rewrite N.land_lor_distr_l. rewrite N.land_diag.
  rewrite land_pow2_high by (unfold small in H; lia). apply N.lor_0_r.
Qed.
Lemma mark_low s : small (N.of_nat s) -> N.land (mark s) 2147483647 = N.of_nat s.
Proof.
  intros H. unfold mark. rewrite N.land_lor_distr_l.
  change (N.land 2147483648 2147483647) with 0%N. rewrite N.lor_0_l.
  change 2147483647%N with (N.ones 31). rewrite N.land_ones. apply N.mod_small. unfold small in H. lia.
Qed.
Lemma mark_val s : small (N.of_nat s) -> mark s = (2147483648 + N.of_nat s)%N.
Proof.
  intros H. unfold mark. rewrite <- N.lxor_lor.
  - symmetry. apply N.add_nocarry_lxor. rewrite N.land_comm. apply land_pow2_high. unfold small in H; lia.
  - rewrite N.land_comm. apply land_pow2_high. unfold small in H; lia.
Qed.
Lemma mark_ne s : small (N.of_nat s) -> mark s <> NIL.
Proof. intros H. rewrite mark_val by auto. unfold small, NIL in *. lia. Qed.
Lemma idx_ne s : small (N.of_nat s) -> N.of_nat s <> NIL.
Proof. unfold small, NIL. lia. Qed.
Lemma w32_small x : small x -> w32 x = x.
Proof. intros H. unfold w32, W32. apply N.mod_small. unfold small in H. lia. Qed.

Lemma land_le a b : (N.land a b <= b)%N.
Proof.
  apply N.ldiff_le. apply N.bits_inj_0. intros n. rewrite N.ldiff_spec, N.land_spec.
  destruct (N.testbit a n), (N.testbit b n); reflexivity.
Qed.

Lemma hashpos_lt h size : 0 < size -> small (N.of_nat size - 1) -> hashpos h size < size.
Proof.
  intros Hs Hb. unfold hashpos. rewrite (w32_small (N.of_nat size - 1)) by auto.
  pose proof (land_le (w32 h) (N.of_nat size - 1)). lia.
Qed.

(** ** Chains over link functions *)
Section Seg.
Implicit Types P Q : nat -> N.

Definition idxe (c : list nat) (e : N) : N := match c with [] => e | q :: _ => N.of_nat q end.
Fixpoint lastm (pm : N) (l : list nat) : N := match l with [] => pm | x :: r => lastm (N.of_nat x) r end.

Fixpoint pseg P Q (pm : N) (c : list nat) (e : N) : Prop :=
  match c with
  | [] => True
  | p :: r => P p = pm /\ Q p = idxe r e /\ pseg P Q (N.of_nat p) r e
  end.

Lemma idxe_app l r e : idxe (l ++ r) e = idxe l (idxe r e).
Proof. destruct l; reflexivity. Qed.
Lemma pseg_app P Q l : forall pm r e, pseg P Q pm (l ++ r) e <-> pseg P Q pm l (idxe r e) /\ pseg P Q (lastm pm l) r e.
Proof.
  induction l as [|x l IH]; intros pm r e; cbn [app pseg lastm]; [tauto|]. rewrite IH, idxe_app. tauto.
Qed.
Lemma pseg_frame P Q P' Q' c : forall pm e, (forall p, In p c -> P' p = P p /\ Q' p = Q p) ->
  pseg P Q pm c e -> pseg P' Q' pm c e.
Proof.
  induction c as [|x c IH]; intros pm e F; cbn [pseg]; auto. intros (a & b & d).
  destruct (F x) as [-> ->]; [now left|]. split; auto. split; auto. apply IH; auto. intros p Hp. apply F. now right.
Qed.
Lemma lastm_snoc l x pm : lastm pm (l ++ [x]) = N.of_nat x.
Proof. revert pm; induction l as [|y l IH]; intros pm; cbn; auto. Qed.

(** Change what follows a chain. *)
Lemma pseg_end P Q P' Q' l q pm e e' : pseg P Q pm (l ++ [q]) e -> ~ In q l ->
  (forall p, In p (l ++ [q]) -> P' p = P p) -> (forall p, In p l -> Q' p = Q p) -> Q' q = e' ->
  pseg P' Q' pm (l ++ [q]) e'.
Proof.
  intros S Nq HP HQ Hq. apply pseg_app in S as [S1 S2]. apply pseg_app. split.
  - apply pseg_frame with P Q; auto. intros p Hp. split; auto. apply HP, in_or_app; auto.
  - cbn in *. destruct S2 as (a & b & _). rewrite HP by (apply in_or_app; right; now left). auto.
Qed.
(** Change what precedes a chain. *)
Lemma pseg_start P Q P' Q' q r pm pm' e : pseg P Q pm (q :: r) e ->
  (forall p, In p (q :: r) -> Q' p = Q p) -> (forall p, In p r -> P' p = P p) -> P' q = pm' ->
  pseg P' Q' pm' (q :: r) e.
Proof.
  intros (a & b & d) HQ HP Hq. cbn [pseg]. rewrite (HQ q) by now left. split; auto. split; auto.
  apply pseg_frame with P Q; auto. intros p Hp. split; auto. apply HQ. now right.
Qed.
End Seg.

Definition gp {V} (a : list (pnode V)) (p : nat) : N := match nth_error a p with Some n => pprev n | None => NIL end.
Definition gn {V} (a : list (pnode V)) (p : nat) : N := match nth_error a p with Some n => pnext n | None => NIL end.
Definition gd {V} (a : list (pnode V)) (p : nat) := option_map (fun n => (pint n, pstr n, pval n)) (nth_error a p).

Section P.
Context {V : Type}.
Implicit Types (a : list (pnode V)) (H : list N).

Lemma rd_lt a p : p < length a -> exists n, rd a p = Ok n /\ nth_error a p = Some n.
Proof.
  intros L. unfold rd. destruct (nth_error a p) as [n|] eqn:E; [eauto|]. apply nth_error_None in E. lia.
Qed.
Lemma modify_ok a p f : p < length a -> exists n, nth_error a p = Some n /\ modify a p f = Ok (upd a p (f n)).
Proof.
  intros L. destruct (rd_lt a p L) as (n & E1 & E2). exists n. split; auto.
  unfold modify. rewrite E1. cbn [bind]. now apply wr_in.
Qed.
Lemma gp_upd a p n q : p < length a -> gp (upd a p n) q = fupd (gp a) p (pprev n) q.
Proof.
  intros L. unfold gp. destruct (Nat.eq_dec q p) as [->|D].
  - now rewrite upd_nth_same, fupd_same.
  - now rewrite upd_nth_other, fupd_other by auto.
Qed.
Lemma gn_upd a p n q : p < length a -> gn (upd a p n) q = fupd (gn a) p (pnext n) q.
Proof.
  intros L. unfold gn. destruct (Nat.eq_dec q p) as [->|D].
  - now rewrite upd_nth_same, fupd_same.
  - now rewrite upd_nth_other, fupd_other by auto.
Qed.
Lemma gd_upd a p n q : p < length a -> gd (upd a p n) q = fupd (gd a) p (Some (pint n, pstr n, pval n)) q.
Proof.
  intros L. unfold gd. destruct (Nat.eq_dec q p) as [->|D].
  - now rewrite upd_nth_same, fupd_same.
  - now rewrite upd_nth_other, fupd_other by auto.
Qed.

Lemma set_prev_ok a p x : p < length a -> exists a', modify a p (set_prev x) = Ok a' /\ length a' = length a /\
  (forall q, gp a' q = fupd (gp a) p x q) /\ (forall q, gn a' q = gn a q) /\ (forall q, gd a' q = gd a q).
Proof.
  intros L. destruct (modify_ok a p (set_prev x) L) as (n & E & ->). eexists; split; [reflexivity|].
  split; [apply upd_length|]. split; [intros q; rewrite gp_upd by auto; reflexivity|]. split; intros q.
  - rewrite gn_upd by auto. destruct (Nat.eq_dec q p) as [->|D]; [|now rewrite fupd_other].
    rewrite fupd_same. unfold gn. now rewrite E.
  - rewrite gd_upd by auto. destruct (Nat.eq_dec q p) as [->|D]; [|now rewrite fupd_other].
    rewrite fupd_same. unfold gd. now rewrite E.
Qed.
Lemma set_next_ok a p x : p < length a -> exists a', modify a p (set_next x) = Ok a' /\ length a' = length a /\
  (forall q, gp a' q = gp a q) /\ (forall q, gn a' q = fupd (gn a) p x q) /\ (forall q, gd a' q = gd a q).
Proof.
  intros L. destruct (modify_ok a p (set_next x) L) as (n & E & ->). eexists; split; [reflexivity|].
  split; [apply upd_length|]. split; [|split; [intros q; rewrite gn_upd by auto; reflexivity|]]; intros q.
  - rewrite gp_upd by auto. destruct (Nat.eq_dec q p) as [->|D]; [|now rewrite fupd_other].
    rewrite fupd_same. unfold gp. now rewrite E.
  - rewrite gd_upd by auto. destruct (Nat.eq_dec q p) as [->|D]; [|now rewrite fupd_other].
    rewrite fupd_same. unfold gd. now rewrite E.
Qed.

(** ** The table invariant; [f p] is the chain of the node at p, if it is set. *)
Definition pchains a H (size : nat) (f : nat -> option nat) : Prop :=
  exists ch, forall s, s < size ->
    nth_error H s = Some (idxe (ch s) NIL) /\ NoDup (ch s) /\ pseg (gp a) (gn a) (mark s) (ch s) NIL /\
    (forall p, In p (ch s) <-> f p = Some s).
Definition pfits a H (size : nat) (f : nat -> option nat) : Prop :=
  length H = size /\ 0 < size /\ small (N.of_nat size - 1) /\ length a <= size /\
  (forall p s, f p = Some s -> p < length a /\ s < size).

Lemma pchains_frame a a' H size f f' :
  pchains a H size f -> (forall p, f p <> None -> gp a' p = gp a p /\ gn a' p = gn a p) -> (forall p, f' p = f p) ->
  pchains a' H size f'.
Proof.
  intros (ch & C) F E. exists ch. intros s Hs. destruct (C s Hs) as (c1 & c2 & c3 & c4).
  split; auto. split; auto. split; [|intros p; now rewrite E].
  apply pseg_frame with (gp a) (gn a); auto. intros p Hp. apply F. apply c4 in Hp. congruence.
Qed.

Lemma pos_small a H size f p : pfits a H size f -> p < length a -> small (N.of_nat p).
Proof. intros (_ & _ & S & L & _) Hp. unfold small in *. lia. Qed.

Lemma attach_new_ok a H size f h i b v :
  pfits a H size f -> pchains a H size f -> length a < size ->
  exists a' H', attach_new a H size h i b v = Ok (a', H') /\ length a' = S (length a) /\
    pfits a' H' size (fupd f (length a) (Some (hashpos h size))) /\
    pchains a' H' size (fupd f (length a) (Some (hashpos h size))) /\
    (forall p, p < length a -> gd a' p = gd a p) /\ gd a' (length a) = Some (i, b, v) /\
    (forall p, p <> length a -> f p = None -> gp a' p = gp a p).
Proof.
  intros F (ch & C) L. pose proof F as (LH & S0 & Sm & La & Fb). unfold attach_new.
  apply Nat.ltb_lt in L as L'. rewrite L'.
  pose proof (hashpos_lt h size S0 Sm) as Hp. set (s := hashpos h size) in *.
  destruct (C s Hp) as (c1 & c2 & c3 & c4). rewrite (rd_Ok _ _ _ c1). cbn [bind].
  assert (Sl : small (N.of_nat (length a))) by (unfold small in *; lia).
  rewrite w32_small by auto.
  set (n := PNode (N.lor 2147483648 (N.of_nat s)) (idxe (ch s) NIL) i b v).
  assert (Fn : f (length a) = None).
  { destruct (f (length a)) as [t|] eqn:E; auto. apply Fb in E. lia. }
  assert (A1 : forall q, gp (a ++ [n]) q = fupd (gp a) (length a) (mark s) q /\
     gn (a ++ [n]) q = fupd (gn a) (length a) (idxe (ch s) NIL) q /\
     gd (a ++ [n]) q = fupd (gd a) (length a) (Some (i, b, v)) q).
  { intros q. unfold gp, gn, gd. destruct (Nat.eq_dec q (length a)) as [->|D].
    - rewrite !fupd_same, nth_error_app2, Nat.sub_diag by lia. unfold n. cbn [nth_error option_map pprev pnext pint pstr pval].
      split; [reflexivity|]. split; reflexivity.
    - rewrite !fupd_other by auto. destruct (Nat.lt_ge_cases q (length a)) as [K|K].
      + rewrite nth_error_app1 by auto. auto.
      + rewrite (proj2 (nth_error_None _ _)) by (rewrite app_length; cbn; lia).
        rewrite (proj2 (nth_error_None a q)) by lia. auto. }
  assert (exists a2, (if N.eqb (idxe (ch s) NIL) NIL then Ok (a ++ [n])
      else modify (a ++ [n]) (N.to_nat (idxe (ch s) NIL)) (set_prev (N.of_nat (length a)))) = Ok a2 /\
      length a2 = S (length a) /\
      (forall q, gn a2 q = fupd (gn a) (length a) (idxe (ch s) NIL) q) /\
      (forall q, gd a2 q = fupd (gd a) (length a) (Some (i, b, v)) q) /\
      (forall q, gp a2 q = match ch s with [] => fupd (gp a) (length a) (mark s) q
         | c :: _ => fupd (fupd (gp a) (length a) (mark s)) c (N.of_nat (length a)) q end)) as (a2 & E2 & L2 & G1 & G2 & G3).
  { destruct (ch s) as [|c r] eqn:Ec; cbn [idxe].
    - change (N.eqb NIL NIL) with true. cbn [N.eqb]. eexists; split; [reflexivity|].
      rewrite app_length; cbn. split; [lia|]. repeat split; intros q; apply A1.
    - assert (In c (ch s)) as K by (rewrite Ec; now left). rewrite Ec in K. apply c4 in K. apply Fb in K as [K _].
      assert (N.of_nat c <> NIL) as Kn by (apply idx_ne; eapply pos_small; eauto).
      apply N.eqb_neq in Kn. rewrite Kn. rewrite Nnat.Nat2N.id.
      destruct (set_prev_ok (a ++ [n]) c (N.of_nat (length a))) as (a2 & E & l2 & g1 & g2 & g3).
      { rewrite app_length; cbn; lia. }
      exists a2. split; auto. rewrite l2, app_length; cbn. split; [lia|].
      split; [intros q; rewrite g2; apply A1|]. split; [intros q; rewrite g3; apply A1|].
      intros q. rewrite g1. destruct (Nat.eq_dec q c) as [->|D]; [now rewrite !fupd_same|].
      rewrite !(fupd_other _ c) by auto. apply A1. }
  rewrite E2. cbn [bind]. rewrite wr_in by lia. cbn [bind].
  eexists _, _; split; [reflexivity|]. split; auto.
  assert (Na : ~ In (length a) (ch s)) by (rewrite c4; congruence).
  split; [|split; [|split; [|split]]].
  - split; [now rewrite upd_length|]. split; auto. split; auto. split; [lia|].
    intros p t. destruct (Nat.eq_dec p (length a)) as [->|D].
    + rewrite fupd_same. intros [= <-]. lia.
    + rewrite fupd_other by auto. intros K. apply Fb in K. lia.
  - exists (fupd ch s (length a :: ch s)). intros t Ht.
    destruct (Nat.eq_dec t s) as [->|D].
    + rewrite fupd_same. split; [rewrite upd_nth_same by lia; reflexivity|].
      split; [now constructor|]. split.
      * cbn [pseg]. rewrite G1, fupd_same, G3. split.
        { destruct (ch s) as [|c r]; [apply fupd_same|].
          rewrite fupd_other by (intros K; apply Na; left; auto). apply fupd_same. }
        split; auto. destruct (ch s) as [|c r] eqn:Ec; [exact I|].
        apply pseg_start with (gp a) (gn a) (mark s); auto.
        -- intros p Hp'. rewrite G1. apply fupd_other. intros ->; auto.
        -- intros p Hp'. rewrite G3. rewrite fupd_other.
           ++ apply fupd_other. intros ->. apply Na. now right.
           ++ intros ->. apply NoDup_cons_iff in c2 as [K _]; auto.
        -- rewrite G3. apply fupd_same.
      * intros p. cbn [In]. rewrite c4. destruct (Nat.eq_dec p (length a)) as [->|D].
        -- rewrite fupd_same. tauto.
        -- rewrite fupd_other by auto. intuition congruence.
    + rewrite fupd_other by auto. rewrite upd_nth_other by auto.
      destruct (C t Ht) as (d1 & d2 & d3 & d4). split; auto. split; auto. split.
      * apply pseg_frame with (gp a) (gn a); auto. intros p Hp'. apply d4 in Hp' as Hf.
        assert (p <> length a) by congruence. split; [|rewrite G1; now apply fupd_other]. rewrite G3.
        destruct (ch s) as [|c r] eqn:Ec; [now apply fupd_other|].
        rewrite fupd_other; [now apply fupd_other|]. intros ->. assert (In c (ch s)) as K by (rewrite Ec; now left).
        rewrite Ec in K. apply c4 in K. congruence.
      * intros p. rewrite d4. destruct (Nat.eq_dec p (length a)) as [->|D'].
        -- rewrite fupd_same. split; congruence.
        -- rewrite fupd_other by auto. tauto.
  - intros p Hp'. rewrite G2. apply fupd_other. lia.
  - rewrite G2. apply fupd_same.
  - intros p D Fp. rewrite G3. destruct (ch s) as [|c r] eqn:Ec; [now apply fupd_other|].
    rewrite fupd_other; [now apply fupd_other|]. intros ->. assert (In c (ch s)) as K by (rewrite Ec; now left).
    rewrite Ec in K. apply c4 in K. congruence.
Qed.

(** Where a set node stands. *)
Lemma chain_at a H size f p s : pfits a H size f -> pchains a H size f -> f p = Some s ->
  exists ch l r,
    (forall t, t < size -> nth_error H t = Some (idxe (ch t) NIL) /\ NoDup (ch t) /\
       pseg (gp a) (gn a) (mark t) (ch t) NIL /\ (forall p, In p (ch t) <-> f p = Some t)) /\
    ch s = l ++ p :: r /\ gp a p = lastm (mark s) l /\ gn a p = idxe r NIL /\
    pseg (gp a) (gn a) (mark s) l (N.of_nat p) /\ pseg (gp a) (gn a) (N.of_nat p) r NIL.
Proof.
  intros F (ch & C) Hp. destruct F as (_ & _ & _ & _ & Fb). destruct (Fb p s Hp) as [_ Hs].
  destruct (C s Hs) as (c1 & c2 & c3 & c4).
  assert (In p (ch s)) as Ip by now apply c4.
  apply in_split in Ip as (l & r & E). exists ch, l, r. split; auto. split; auto.
  rewrite E in c3. apply pseg_app in c3 as [s1 s2]. cbn [pseg idxe] in s1, s2. tauto.
Qed.

(** The test on the previous index tells a slot from a node. *)
Lemma lastm_cases a H size f p s l : pfits a H size f -> s < size -> (forall q, In q l -> q < length a) ->
  p = lastm (mark s) l ->
  p <> NIL /\
  ((l = [] /\ N.land p 2147483648 <> 0%N /\ N.to_nat (N.land p 2147483647) = s) \/
   (exists l' q, l = l' ++ [q] /\ p = N.of_nat q /\ N.land p 2147483648 = 0%N)).
Proof.
  intros F Hs Hl ->. assert (Ss : small (N.of_nat s)).
  { destruct F as (_ & _ & Sm & _). unfold small in *. lia. }
  destruct (list_eq_dec Nat.eq_dec l []) as [->|Hne].
  - cbn [lastm]. split; [now apply mark_ne|]. left. split; auto.
    rewrite mark_high, mark_low, Nnat.Nat2N.id by auto. split; auto. discriminate.
  - destruct (exists_last Hne) as (l' & q & ->). rewrite lastm_snoc.
    assert (Sq : small (N.of_nat q)).
    { eapply pos_small; eauto. apply Hl, in_or_app. right; now left. }
    split; [now apply idx_ne|]. right. exists l', q. split; auto. split; auto.
    apply land_pow2_high. unfold small in Sq. lia.
Qed.

(** Unlinking a node: the two writes of Unset. *)
Lemma rd_g a p n : rd a p = Ok n -> gp a p = pprev n /\ gn a p = pnext n.
Proof. unfold rd, gp, gn. destruct (nth_error a p); [|discriminate]. intros [= ->]. auto. Qed.

Lemma unlink_node_ok a H size f p s :
  pfits a H size f -> pchains a H size f -> f p = Some s ->
  exists a' H', unlink_node a H p = Ok (a', H') /\ length a' = length a /\
    pfits a' H' size (fupd f p None) /\ pchains a' H' size (fupd f p None) /\
    (forall q, gd a' q = gd a q) /\ (forall q, f q = None -> gp a' q = gp a q).
Proof.
  intros F Ch Fp.
  destruct (chain_at a H size f p s F Ch Fp) as (ch & l & r & C & Ec & Gp & Gn & S1 & S2).
  pose proof F as (LH & S0 & Sm & La & Fb). destruct (Fb _ _ Fp) as [Lp Hs].
  destruct (C s Hs) as (c1 & c2 & c3 & c4).
  assert (Mem : forall q, In q l \/ In q r -> f q = Some s).
  { intros q K. apply c4. rewrite Ec. apply in_or_app. cbn. tauto. }
  assert (Lt : forall q, In q l \/ In q r -> q < length a) by (intros q K; eapply Fb; eauto).
  rewrite Ec in c2. destruct (NoDup_mid _ _ _ c2) as (Pl & Pr & Nl & Nr & Nlr).
  unfold unlink_node. destruct (rd_lt a p Lp) as (n & E1 & E1'). rewrite E1. cbn [bind].
  destruct (rd_g _ _ _ E1) as [g1 g2]. rewrite <- g1, <- g2, Gn.
  assert (exists a1, (if N.eqb (idxe r NIL) NIL then Ok a else modify a (N.to_nat (idxe r NIL)) (set_prev (gp a p))) = Ok a1 /\
     length a1 = length a /\ (forall q, gn a1 q = gn a q) /\ (forall q, gd a1 q = gd a q) /\
     (forall q, gp a1 q = match r with [] => gp a q | c :: _ => fupd (gp a) c (gp a p) q end)) as (a1 & E2 & L1 & G1 & G2 & G3).
  { destruct r as [|c r]; cbn [idxe].
    - change (N.eqb NIL NIL) with true. cbv iota. exists a. auto.
    - assert (c < length a) as Lc by (apply Lt; right; now left).
      assert (N.of_nat c <> NIL) as Kn by (apply idx_ne; eapply pos_small; eauto).
      apply N.eqb_neq in Kn. rewrite Kn, Nnat.Nat2N.id.
      destruct (set_prev_ok a c (gp a p) Lc) as (a1 & E & l1 & h1 & h2 & h3). exists a1. auto. }
  rewrite E2. cbn [bind].
  destruct (rd_lt a1 p) as (n1 & E3 & E3'); [lia|]. rewrite E3. cbn [bind].
  destruct (rd_g _ _ _ E3) as [g3 g4]. rewrite <- g3, <- g4, G1, Gn.
  assert (gp a1 p = gp a p) as ->.
  { rewrite G3. destruct r as [|c r]; auto. apply fupd_other. intros ->. apply Pr. now left. }
  assert (Ll : forall q, In q l -> q < length a) by auto.
  destruct (lastm_cases a H size f (gp a p) s l F Hs Ll Gp) as [_ [(El & B1 & B2)|(l' & q & El & B1 & B2)]].
  - apply N.eqb_neq in B1. rewrite B1, B2. rewrite wr_in by lia. cbn [bind].
    eexists _, _; split; [reflexivity|]. split; auto. subst l. cbn [app lastm] in *.
    split; [|split; [|split]]; auto.
    + split; [now rewrite upd_length|]. split; auto. split; auto. split; [lia|].
      intros q t. destruct (Nat.eq_dec q p) as [->|D]; [rewrite fupd_same; discriminate|].
      rewrite fupd_other by auto. intros K. apply Fb in K. lia.
    + exists (fupd ch s r). intros t Ht. destruct (Nat.eq_dec t s) as [->|D].
      * rewrite fupd_same, upd_nth_same by lia. split; auto. split; auto. split.
        -- destruct r as [|c r]; [exact I|]. apply pseg_start with (gp a) (gn a) (N.of_nat p); auto.
           ++ intros q Hq. rewrite G3. apply fupd_other. intros ->. apply NoDup_cons_iff in Nr as [K _]; auto.
           ++ rewrite G3, fupd_same. exact Gp.
        -- intros q. destruct (Nat.eq_dec q p) as [->|D].
           ++ rewrite fupd_same. split; [tauto|discriminate].
           ++ rewrite fupd_other by auto. rewrite <- c4, Ec. cbn. intuition congruence.
      * rewrite fupd_other, upd_nth_other by auto. destruct (C t Ht) as (d1 & d2 & d3 & d4).
        split; auto. split; auto. split.
        -- apply pseg_frame with (gp a) (gn a); auto. intros q Hq. apply d4 in Hq. split; auto.
           rewrite G3. destruct r as [|c r]; auto. apply fupd_other. intros ->. rewrite Mem in Hq by (right; now left). congruence.
        -- intros q. rewrite d4. destruct (Nat.eq_dec q p) as [->|D'].
           ++ rewrite fupd_same. split; congruence.
           ++ now rewrite fupd_other.
    + intros q Fq. rewrite G3. destruct r as [|c r]; auto. apply fupd_other. intros ->.
      rewrite Mem in Fq by (right; now left). discriminate.
  - rewrite B2. change (N.eqb 0 0) with true. cbv iota. rewrite B1, Nnat.Nat2N.id.
    assert (Iq : In q l) by (rewrite El; apply in_or_app; right; now left).
    destruct (set_next_ok a1 q (idxe r NIL)) as (a2 & E4 & L2 & h1 & h2 & h3).
    { rewrite L1. auto. }
    rewrite E4. cbn [bind]. eexists _, _; split; [reflexivity|]. split; [lia|].
    split; [|split; [|split]].
    + split; auto. split; auto. split; auto. split; [lia|].
      intros z t. destruct (Nat.eq_dec z p) as [->|D]; [rewrite fupd_same; discriminate|].
      rewrite fupd_other by auto. intros K. apply Fb in K. lia.
    + exists (fupd ch s (l ++ r)). intros t Ht. destruct (Nat.eq_dec t s) as [->|D].
      * rewrite fupd_same. split.
        { rewrite c1, Ec. rewrite El, <- !app_assoc. destruct l'; reflexivity. }
        split; auto. split.
        -- apply pseg_app. split.
           ++ rewrite El in *. apply pseg_end with (gp a) (gn a) (N.of_nat p); auto.
              ** apply NoDup_remove_2 in Nl. now rewrite app_nil_r in Nl.
              ** intros z Hz. rewrite h1, G3. destruct r as [|c r]; auto. apply fupd_other. intros ->.
                 apply (NoDup_app_disj _ _ Nlr c); auto. now left.
              ** intros z Hz. rewrite h2. rewrite fupd_other; auto. intros ->.
                 apply NoDup_remove_2 in Nl. now rewrite app_nil_r in Nl.
              ** rewrite h2. apply fupd_same.
           ++ destruct r as [|c r]; [exact I|]. apply pseg_start with (gp a) (gn a) (N.of_nat p); auto.
              ** intros z Hz. rewrite h2, fupd_other; auto. intros ->.
                 apply (NoDup_app_disj _ _ Nlr q); auto.
              ** intros z Hz. rewrite h1, G3. apply fupd_other. intros ->. apply NoDup_cons_iff in Nr as [K _]; auto.
              ** rewrite h1, G3, fupd_same. exact Gp.
        -- intros z. destruct (Nat.eq_dec z p) as [->|D].
           ++ rewrite fupd_same, in_app_iff. split; [tauto|discriminate].
           ++ rewrite fupd_other by auto. rewrite <- c4, Ec, !in_app_iff. cbn. intuition congruence.
      * rewrite fupd_other by auto. destruct (C t Ht) as (d1 & d2 & d3 & d4).
        split; auto. split; auto. split.
        -- apply pseg_frame with (gp a) (gn a); auto. intros z Hz. apply d4 in Hz. rewrite h1, h2. split.
           ++ rewrite G3. destruct r as [|c r]; auto. apply fupd_other. intros ->. rewrite Mem in Hz by (right; now left). congruence.
           ++ rewrite fupd_other; auto. intros ->. rewrite Mem in Hz by auto. congruence.
        -- intros z. rewrite d4. destruct (Nat.eq_dec z p) as [->|D'].
           ++ rewrite fupd_same. split; congruence.
           ++ now rewrite fupd_other.
    + intros z. now rewrite h3.
    + intros z Fz. rewrite h1, G3. destruct r as [|c r]; auto. apply fupd_other. intros ->.
      rewrite Mem in Fz by (right; now left). discriminate.
Qed.

(** Moving a node: the writes of Optimize. *)
Lemma move_node_ok a H size f x y s n :
  pfits a H size f -> pchains a H size f -> f y = Some s -> f x = None -> x < length a -> rd a y = Ok n ->
  exists a' H', move_node a H x n = Ok (a', H') /\ length a' = length a /\
    pfits a' H' size (fupd (fupd f y None) x (Some s)) /\ pchains a' H' size (fupd (fupd f y None) x (Some s)) /\
    (forall q, gd a' q = fupd (gd a) x (gd a y) q) /\
    (forall q, q <> x -> f q = None -> gp a' q = gp a q).
Proof.
  intros F Ch Fy Fx Lx Ry.
  destruct (chain_at a H size f y s F Ch Fy) as (ch & l & r & C & Ec & Gp & Gn & S1 & S2).
  pose proof F as (LH & S0 & Sm & La & Fb). destruct (Fb _ _ Fy) as [Ly Hs].
  assert (Dxy : x <> y) by (intros ->; congruence).
  destruct (C s Hs) as (c1 & c2 & c3 & c4).
  assert (Mem : forall q, In q l \/ In q r -> f q = Some s).
  { intros q K. apply c4. rewrite Ec. apply in_or_app. cbn. tauto. }
  assert (Lt : forall q, In q l \/ In q r -> q < length a) by (intros q K; eapply Fb; eauto).
  assert (Nx : ~ In x l /\ ~ In x r) by (split; intros K; rewrite Mem in Fx by auto; discriminate).
  destruct Nx as [Nxl Nxr].
  rewrite Ec in c2. destruct (NoDup_mid _ _ _ c2) as (Pl & Pr & Nl & Nr & Nlr).
  destruct (rd_g _ _ _ Ry) as [g1 g2].
  assert (Gy : gd a y = Some (pint n, pstr n, pval n)).
  { unfold gd. unfold rd in Ry. destruct (nth_error a y); [|discriminate]. now injection Ry as ->. }
  unfold move_node. rewrite w32_small by (eapply pos_small; eauto).
  rewrite wr_in by auto. cbn [bind].
  set (a1 := upd a x n).
  assert (L1 : length a1 = length a) by apply upd_length.
  assert (A1p : forall q, gp a1 q = fupd (gp a) x (gp a y) q) by (intros q; unfold a1; rewrite gp_upd by auto; congruence).
  assert (A1n : forall q, gn a1 q = fupd (gn a) x (gn a y) q) by (intros q; unfold a1; rewrite gn_upd by auto; congruence).
  assert (A1d : forall q, gd a1 q = fupd (gd a) x (gd a y) q) by (intros q; unfold a1; rewrite gd_upd by auto; now rewrite Gy).
  rewrite <- g1.
  assert (Ll : forall q, In q l -> q < length a) by auto.
  assert (STEP : exists a2 H2,
    (if N.eqb (N.land (gp a y) 2147483648) 0
     then let* a2 := modify a1 (N.to_nat (gp a y)) (set_next (N.of_nat x)) in Ok (a2, H)
     else let* H2 := wr H (N.to_nat (N.land (gp a y) 2147483647)) (N.of_nat x) in Ok (a1, H2)) = Ok (a2, H2) /\
    length a2 = length a /\ length H2 = length H /\
    (forall q, gp a2 q = gp a1 q) /\ (forall q, gd a2 q = gd a1 q) /\
    (forall t, t <> s -> nth_error H2 t = nth_error H t) /\ nth_error H2 s = Some (idxe (l ++ x :: r) NIL) /\
    pseg (gp a) (gn a2) (mark s) l (N.of_nat x) /\
    (forall q, ~ In q l -> gn a2 q = gn a1 q)).
  { destruct (lastm_cases a H size f (gp a y) s l F Hs Ll Gp) as [_ [(El & B1 & B2)|(l' & q & El & B1 & B2)]].
    - apply N.eqb_neq in B1. rewrite B1, B2. rewrite wr_in by lia. cbn [bind].
      eexists _, _; split; [reflexivity|]. split; auto. split; [apply upd_length|]. subst l.
      split; auto. split; auto. split; [intros t D; apply upd_nth_other; auto|].
      split; [rewrite upd_nth_same by lia; reflexivity|]. split; [exact I|]. auto.
    - rewrite B2. change (N.eqb 0 0) with true. cbv iota. rewrite B1, Nnat.Nat2N.id.
      assert (Iq : In q l) by (rewrite El; apply in_or_app; right; now left).
      destruct (set_next_ok a1 q (N.of_nat x)) as (a2 & E4 & L2 & h1 & h2 & h3).
      { rewrite L1. auto. }
      rewrite E4. cbn [bind]. eexists _, _; split; [reflexivity|]. split; [lia|]. split; auto.
      split; auto. split; auto. split; auto. split.
      { rewrite c1, Ec, El, <- !app_assoc. destruct l'; reflexivity. }
      split.
      + rewrite El in *. apply pseg_end with (gp a) (gn a) (N.of_nat y); auto.
        * apply NoDup_remove_2 in Nl. now rewrite app_nil_r in Nl.
        * intros z Hz. rewrite h2. rewrite fupd_other.
          -- rewrite A1n. apply fupd_other. intros ->. apply Nxl, in_or_app; auto.
          -- intros ->. apply NoDup_remove_2 in Nl. now rewrite app_nil_r in Nl.
        * rewrite h2. apply fupd_same.
      + intros z Hz. rewrite h2. apply fupd_other. intros ->; auto. }
  destruct STEP as (a2 & H2 & E2 & L2 & LH2 & P2 & D2 & HN & HS & SL & N2). rewrite E2. cbn [bind].
  destruct (rd_lt a2 x) as (n2 & E3 & _); [lia|]. rewrite E3. cbn [bind].
  destruct (rd_g _ _ _ E3) as [_ g4]. rewrite <- g4.
  assert (gn a2 x = idxe r NIL) as -> by (rewrite N2 by auto; rewrite A1n, fupd_same; auto).
  assert (exists a3, (if N.eqb (idxe r NIL) NIL then Ok a2 else modify a2 (N.to_nat (idxe r NIL)) (set_prev (N.of_nat x))) = Ok a3 /\
     length a3 = length a /\ (forall q, gn a3 q = gn a2 q) /\ (forall q, gd a3 q = gd a1 q) /\
     (forall q, gp a3 q = match r with [] => gp a1 q | c :: _ => fupd (gp a1) c (N.of_nat x) q end)) as (a3 & E4 & L3 & G1 & G2 & G3).
  { destruct r as [|c r]; cbn [idxe].
    - change (N.eqb NIL NIL) with true. cbv iota. exists a2. auto.
    - assert (c < length a) as Lc by (apply Lt; right; now left).
      assert (N.of_nat c <> NIL) as Kn by (apply idx_ne; eapply pos_small; eauto).
      apply N.eqb_neq in Kn. rewrite Kn, Nnat.Nat2N.id.
      destruct (set_prev_ok a2 c (N.of_nat x)) as (a3 & E & l1 & h1 & h2 & h3); [lia|]. exists a3.
      split; auto. split; [lia|]. split; auto. split; [intros q; now rewrite h3|].
      intros q. rewrite h1. destruct (Nat.eq_dec q c) as [->|D]; [now rewrite !fupd_same|]. now rewrite !fupd_other. }
  rewrite E4. cbn [bind]. eexists _, _; split; [reflexivity|]. split; auto.
  assert (G3' : forall q, q <> x -> ~ In q r -> gp a3 q = gp a q).
  { intros q Dq Nq. rewrite G3. destruct r as [|c r]; [rewrite A1p; now apply fupd_other|].
    rewrite fupd_other by (intros ->; apply Nq; now left). rewrite A1p. now apply fupd_other. }
  assert (N3' : forall q, q <> x -> ~ In q l -> gn a3 q = gn a q).
  { intros q Dq Nq. rewrite G1, N2 by auto. rewrite A1n. now apply fupd_other. }
  split; [|split; [|split]].
  - split; [lia|]. split; auto. split; auto. split; [lia|].
    intros q t. destruct (Nat.eq_dec q x) as [->|D]; [rewrite fupd_same; intros [= <-]; lia|].
    rewrite fupd_other by auto. destruct (Nat.eq_dec q y) as [->|D']; [rewrite fupd_same; discriminate|].
    rewrite fupd_other by auto. intros K. apply Fb in K. lia.
  - exists (fupd ch s (l ++ x :: r)). intros t Ht. destruct (Nat.eq_dec t s) as [->|D].
    + rewrite fupd_same. split; auto. split; [apply NoDup_insert; auto; rewrite in_app_iff; tauto|]. split.
      * apply pseg_app. cbn [idxe]. split.
        -- apply pseg_frame with (gp a) (gn a2); auto. intros q Hq. split; auto.
           apply G3'; [intros ->; auto|]. intros K. eapply NoDup_app_disj; [exact Nlr| |]; eauto.
        -- cbn [pseg]. split; [|split].
           ++ assert (gp a3 x = gp a y) as ->; auto. rewrite G3. destruct r as [|c r].
              ** rewrite A1p. apply fupd_same.
              ** rewrite fupd_other by (intros ->; apply Nxr; now left). rewrite A1p. apply fupd_same.
           ++ rewrite G1, N2 by auto. rewrite A1n, fupd_same. auto.
           ++ destruct r as [|c r]; [exact I|]. apply pseg_start with (gp a) (gn a) (N.of_nat y); auto.
              ** intros q Hq. apply N3'; [intros ->; auto|]. intros K. eapply NoDup_app_disj; [exact Nlr| |]; eauto.
              ** intros q Hq. rewrite G3. rewrite fupd_other by (intros ->; apply NoDup_cons_iff in Nr as [K _]; auto).
                 rewrite A1p. apply fupd_other. intros ->. apply Nxr. now right.
              ** rewrite G3. apply fupd_same.
      * intros q. destruct (Nat.eq_dec q x) as [->|Dx].
        -- rewrite fupd_same, in_app_iff. cbn. tauto.
        -- rewrite fupd_other by auto. destruct (Nat.eq_dec q y) as [->|Dy].
           ++ rewrite fupd_same, in_app_iff. cbn. intuition congruence.
           ++ rewrite fupd_other by auto. rewrite <- c4, Ec, !in_app_iff. cbn. intuition congruence.
    + rewrite fupd_other by auto. destruct (C t Ht) as (d1 & d2 & d3 & d4).
      split; [now rewrite HN|]. split; auto. split.
      * apply pseg_frame with (gp a) (gn a); auto. intros q Hq. apply d4 in Hq.
        assert (q <> x) by congruence.
        assert (~ In q l /\ ~ In q r) as [? ?] by (split; intros K; rewrite Mem in Hq by auto; congruence). auto.
      * intros q. rewrite d4. destruct (Nat.eq_dec q x) as [->|Dx].
        -- rewrite fupd_same. split; congruence.
        -- rewrite fupd_other by auto. destruct (Nat.eq_dec q y) as [->|Dy].
           ++ rewrite fupd_same. split; congruence.
           ++ now rewrite fupd_other.
  - intros q. rewrite G2. apply A1d.
  - intros q Dq Fq. apply G3'; auto. intros K. rewrite Mem in Fq by auto. discriminate.
Qed.
End P.
