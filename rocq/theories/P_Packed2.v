(** The packed ordered hash model refines its specification: the calls. *)
From Verif Require Import Base S_Seq S_Hash S_Packed M_Packed P_Dll P_List P_Hash P_Packed.
Local Arguments N.lor : simpl never.
Local Arguments N.land : simpl never.
Local Arguments N.of_nat : simpl never.
Local Arguments mark : simpl never.

Lemma pat_inj x y : (- 2 ^ 63 <= x < 2 ^ 63)%Z -> (- 2 ^ 63 <= y < 2 ^ 63)%Z -> pat x = pat y -> x = y.
Proof.
  unfold pat. intros Hx Hy E.
  assert (x mod 2 ^ 64 = y mod 2 ^ 64)%Z as E2 by (apply Z2N.inj; auto; apply Z.mod_pos_bound; lia).
  change (2 ^ 64)%Z with 18446744073709551616%Z in E2.
  change (2 ^ 63)%Z with 9223372036854775808%Z in *.
  pose proof (Z.div_mod x 18446744073709551616). pose proof (Z.div_mod y 18446744073709551616).
  assert (x / 18446744073709551616 = y / 18446744073709551616 \/
    x / 18446744073709551616 + 1 = y / 18446744073709551616 \/
    x / 18446744073709551616 = y / 18446744073709551616 + 1)%Z as K.
  { assert (-1 <= x / 18446744073709551616 <= 0)%Z by (split; [apply Z.div_le_lower_bound; lia|apply Z.lt_succ_r, Z.div_lt_upper_bound; lia]).
    assert (-1 <= y / 18446744073709551616 <= 0)%Z by (split; [apply Z.div_le_lower_bound; lia|apply Z.lt_succ_r, Z.div_lt_upper_bound; lia]).
    lia. }
  lia.
Qed.

Lemma pow_small j : j <= 30 -> small (N.of_nat (2 ^ j) - 1) /\ 0 < 2 ^ j.
Proof.
  intros L. rewrite Nnat.Nat2N.inj_pow. change (N.of_nat 2) with 2%N.
  assert (2 ^ N.of_nat j <= 2 ^ 30)%N as K by (apply N.pow_le_mono_r; lia).
  split; [|apply Nat.neq_0_lt_0, Nat.pow_nonzero; lia].
  assert (0 < 2 ^ N.of_nat j)%N by (apply N.neq_0_lt_0, N.pow_nonzero; lia).
  unfold small. change (2 ^ 30)%N with 1073741824%N in K. lia.
Qed.
Lemma pow_le30 j : (N.of_nat (2 ^ j) <= 2 ^ 30)%N -> j <= 30.
Proof.
  rewrite Nnat.Nat2N.inj_pow. change (N.of_nat 2) with 2%N. intros K.
  apply N.pow_le_mono_r_iff in K; lia.
Qed.
Lemma pow_lt30 j : (N.of_nat (2 ^ j) < 2 ^ 30)%N -> j < 30.
Proof.
  rewrite Nnat.Nat2N.inj_pow. change (N.of_nat 2) with 2%N. intros K.
  apply N.pow_lt_mono_r_iff in K; lia.
Qed.

Lemma grow_ok fuel : forall i n, n <= 2 ^ fuel * 2 ^ i ->
  exists j, grow fuel (2 ^ i) n = Ok (2 ^ j) /\ n <= 2 ^ j /\ i <= j /\ (j = i \/ (0 < j /\ 2 ^ (j - 1) < n)).
Proof.
  induction fuel as [|fuel IH]; intros i n L; cbn [grow].
  - destruct (Nat.ltb_spec (2 ^ i) n) as [K|K]; [cbn in L; lia|]. exists i. auto.
  - destruct (Nat.ltb_spec (2 ^ i) n) as [K|K]; [|exists i; auto].
    change (2 * 2 ^ i) with (2 ^ S i). destruct (IH (S i) n) as (j & E & L1 & L2 & L3).
    { cbn [Nat.pow] in *. lia. }
    exists j. split; auto. split; auto. split; [lia|]. right. split; [lia|].
    destruct L3 as [->|[_ L3]]; auto. replace (S i - 1) with i by lia. auto.
Qed.
Lemma grow_pow n i : (N.of_nat n <= 2 ^ 30)%N -> i <= 30 ->
  exists j, grow n (2 ^ i) n = Ok (2 ^ j) /\ n <= 2 ^ j /\ i <= j /\ j <= 30.
Proof.
  intros L Li. destruct (grow_ok n i n) as (j & E & L1 & L2 & L3).
  { pose proof (Nat.pow_gt_lin_r 2 n). assert (0 < 2 ^ i) by (apply Nat.neq_0_lt_0, Nat.pow_nonzero; lia). nia. }
  exists j. split; auto. split; auto. split; auto. destruct L3 as [->|[Lj L3]]; auto.
  assert (j - 1 < 30); [|lia]. apply pow_lt30. lia.
Qed.

Section P.
Context {V : Type}.
Context (dflt : V).
Implicit Types (a : list (pnode V)) (H : list N) (A B : slots (V:=V)).

(** ** Slots *)
Lemma entries_app A B : entries (A ++ B) = entries A ++ entries B.
Proof. apply flat_map_app. Qed.
Lemma entries_some (m : list (key * V)) : entries (map Some m) = m.
Proof. induction m as [|e m IH]; auto. cbn. unfold entries in IH. now rewrite IH. Qed.
Lemma entries_compact A : entries (compact A) = entries A.
Proof. apply entries_some. Qed.
Lemma compact_length A : length (compact A) = length (entries A).
Proof. apply map_length. Qed.
Lemma entries_le A : length (entries A) <= length A.
Proof. induction A as [|[e|] A IH]; cbn in *; unfold entries in *; lia. Qed.
Lemma compact_full A : length (entries A) = length A -> compact A = A.
Proof.
  unfold compact. induction A as [|[e|] A IH]; cbn; auto; intros E.
  - f_equal. apply IH. unfold entries in *. lia.
  - pose proof (entries_le A). unfold entries in *. lia.
Qed.
Lemma in_entries A e : In e (entries A) <-> exists p, nth_error A p = Some (Some e).
Proof.
  unfold entries. rewrite in_flat_map. split.
  - intros ([x|] & I1 & I2); [|destruct I2]. destruct I2 as [<-|[]]. apply In_nth_error in I1. auto.
  - intros (p & E). exists (Some e). split; [eapply nth_error_In; eauto|now left].
Qed.
Lemma nth_Some A p e : nth p A None = Some e <-> nth_error A p = Some (Some e).
Proof.
  split; intros E.
  - destruct (nth_error A p) as [o|] eqn:K.
    + erewrite nth_error_nth in E by eauto. now subst.
    + rewrite nth_overflow in E by now apply nth_error_None. discriminate.
  - now apply nth_error_nth.
Qed.
Lemma at_key_nth A k p : at_key A k p <-> exists v, nth p A None = Some (k, v).
Proof. unfold at_key. split; intros [v E]; exists v; now apply nth_Some. Qed.
Lemma key_dec A k : (exists p, at_key A k p) \/ no_key A k.
Proof.
  induction A as [|o A IH].
  - right. intros [|p] [v E]; discriminate.
  - destruct IH as [[p Hp]|IH]; [left; exists (S p); auto|].
    destruct o as [[k' v]|].
    + destruct (key_eqb k' k) eqn:E.
      * apply key_eqb_eq in E as ->. left. exists 0, v. reflexivity.
      * right. intros [|p] [v' E']; cbn in E'.
        -- injection E' as -> ->. rewrite key_eqb_refl in E. discriminate.
        -- apply (IH p). now exists v'.
    + right. intros [|p] [v' E']; [discriminate|]. apply (IH p). now exists v'.
Qed.

(** ** What a table holds *)
Section T.
Context (hf : bytes -> N).

Definition ki (k : key) : N := match k with KInt z => pat z | KStr b => hf b end.
Definition ks (k : key) : option bytes := match k with KInt _ => None | KStr b => Some b end.
Definition fo (size : nat) (g : nat -> option (key * V)) (p : nat) : option nat :=
  option_map (fun e => hashpos (hf (key_bytes (fst e))) size) (g p).

Definition PI a H (size : nat) (g : nat -> option (key * V)) (d : nat) : Prop :=
  pfits a H size (fo size g) /\ pchains a H size (fo size g) /\
  (forall p k v, g p = Some (k, v) -> gd a p = Some (ki k, ks k, Some v) /\ key_ok k) /\
  (forall p, d <= p -> g p = None -> gp a p = NIL).

Lemma fo_None size g p : fo size g p = None <-> g p = None.
Proof. unfold fo. destruct (g p); cbn; split; congruence. Qed.

Lemma fits_ext a H size f f' : pfits a H size f -> (forall p, f' p = f p) -> pfits a H size f'.
Proof. intros (h1 & h2 & h3 & h4 & h5) E. repeat split; auto; rewrite E in *; eapply h5; eauto. Qed.
Lemma chains_ext a H size f f' : pchains a H size f -> (forall p, f' p = f p) -> pchains a H size f'.
Proof. intros C E. eapply pchains_frame; eauto. Qed.
Lemma PI_ext a H size g g' d : PI a H size g d -> (forall p, g' p = g p) -> PI a H size g' d.
Proof.
  intros (h1 & h2 & h3 & h4) E.
  assert (forall p, fo size g' p = fo size g p) by (intros p; unfold fo; now rewrite E).
  split; [eapply fits_ext; eauto|]. split; [eapply chains_ext; eauto|].
  split; intros p; rewrite E; auto.
Qed.

Lemma PI_live a H size g d p e : PI a H size g d -> g p = Some e ->
  p < length a /\ gp a p <> NIL.
Proof.
  intros (F & C & _ & _) E. assert (fo size g p = Some (hashpos (hf (key_bytes (fst e))) size)) as Ef.
  { unfold fo. now rewrite E. }
  pose proof F as (_ & _ & _ & _ & Fb). destruct (Fb _ _ Ef) as [L Ls]. split; auto.
  destruct (chain_at _ _ _ _ _ _ F C Ef) as (ch & l & r & C' & Ec & Gp & _).
  destruct (C' _ Ls) as (_ & _ & _ & M).
  eapply lastm_cases; eauto.
  intros q Iq. assert (fo size g q = Some (hashpos (hf (key_bytes (fst e))) size)) as Eq.
  { apply M. rewrite Ec. apply in_or_app. now left. }
  now apply Fb in Eq.
Qed.

(** ** Lookup *)
Definition kmatch (k : key) (g : nat -> option (key * V)) (p : nat) : bool :=
  match g p with Some (k', _) => key_eqb k' k | None => false end.

Lemma ptest_ok a H size g d k p n : PI a H size g d -> key_ok k -> g p <> None -> rd a p = Ok n ->
  ptest k (hf (key_bytes k)) n = kmatch k g p.
Proof.
  intros (_ & _ & Ct & _) Hk Hg R. unfold kmatch. destruct (g p) as [[k' v]|] eqn:E; [|congruence].
  destruct (Ct _ _ _ E) as [G Hk']. unfold gd in G. unfold rd in R.
  destruct (nth_error a p) as [n'|]; [|discriminate]. injection R as ->. cbn in G. injection G as e1 e2 e3.
  destruct k as [z|b]; cbn [ptest]; rewrite e1, e2.
  - destruct k' as [z'|b']; cbn [ki ks key_eqb].
    + rewrite andb_true_r. destruct (Z.eqb_spec z' z) as [->|D]; [apply N.eqb_refl|].
      apply N.eqb_neq. intros Q. apply D. apply pat_inj; auto.
    + apply andb_false_r.
  - destruct k' as [z'|b']; cbn [ki ks key_eqb]; [apply andb_false_r|]. cbn [key_bytes].
    destruct (list_eq_dec N.eq_dec b b') as [->|D]; destruct (list_eq_dec N.eq_dec b' b') as [_|D'] || idtac.
    + rewrite N.eqb_refl, Nat.eqb_refl. reflexivity.
    + congruence.
    + destruct (list_eq_dec N.eq_dec b' b) as [->|_]; [congruence|]. now rewrite !andb_false_r.
    + congruence.
Qed.

Lemma pfind_loop_ok a H size g d k : PI a H size g d -> key_ok k -> forall c pm fuel,
  pseg (gp a) (gn a) pm c NIL -> (forall p, In p c -> g p <> None) -> length c <= fuel ->
  pfind_loop fuel a (ptest k (hf (key_bytes k))) (idxe c NIL) = Ok (List.find (kmatch k g) c).
Proof.
  intros I Hk. induction c as [|p c IH]; intros pm fuel Sg Hc L; cbn [idxe List.find].
  - destruct fuel; reflexivity.
  - destruct fuel as [|fuel]; [cbn in L; lia|]. destruct Sg as (s1 & s2 & s3).
    assert (Hp : g p <> None) by (apply Hc; now left).
    destruct (g p) as [e|] eqn:E; [|congruence]. destruct (PI_live _ _ _ _ _ _ _ I E) as [Lp _].
    assert (N.of_nat p <> NIL) as Kn by (apply idx_ne; eapply pos_small; [apply I|auto]).
    cbn [pfind_loop]. apply N.eqb_neq in Kn. rewrite Kn, Nnat.Nat2N.id.
    destruct (rd_lt a p Lp) as (n & R & _). rewrite R. cbn [bind].
    rewrite (ptest_ok a H size g d k p n I Hk) by (auto; congruence). destruct (kmatch k g p); auto.
    destruct (rd_g _ _ _ R) as [_ <-]. rewrite s2. eapply IH; eauto; [intros q Hq; apply Hc; now right|cbn in L; lia].
Qed.

Lemma find_ok a H size g d k : PI a H size g d -> key_ok k ->
  (forall p q v w, g p = Some (k, v) -> g q = Some (k, w) -> p = q) ->
  exists o, (let* p := rd H (hashpos (hf (key_bytes k)) size) in
     pfind_loop (length a) a (ptest k (hf (key_bytes k))) p) = Ok o /\
    (forall p v, g p = Some (k, v) -> o = Some p) /\ (forall p, o = Some p -> exists v, g p = Some (k, v)).
Proof.
  intros I Hk U. pose proof I as (F & (ch & C) & _ & _). pose proof F as (LH & S0 & Sm & La & Fb).
  pose proof (hashpos_lt (hf (key_bytes k)) size S0 Sm) as Hp. set (s := hashpos (hf (key_bytes k)) size) in *.
  destruct (C s Hp) as (c1 & c2 & c3 & c4). rewrite (rd_Ok _ _ _ c1). cbn [bind].
  assert (Mem : forall p, In p (ch s) -> g p <> None).
  { intros p Hi E. apply c4 in Hi. apply (proj2 (fo_None size g p)) in E. rewrite E in Hi. discriminate. }
  erewrite pfind_loop_ok; eauto.
  2:{ replace (length a) with (length (seq 0 (length a))) by apply seq_length. apply NoDup_incl_length; auto.
      intros p Hi. apply in_seq. apply c4, Fb in Hi. lia. }
  exists (List.find (kmatch k g) (ch s)). split; auto. split.
  - intros p v E. assert (In p (ch s)) as Ip by (apply c4; unfold fo; now rewrite E).
    destruct (List.find (kmatch k g) (ch s)) as [q|] eqn:Ef.
    + apply find_some in Ef as [_ Ef]. unfold kmatch in Ef. destruct (g q) as [[k' w]|] eqn:Eq; [|discriminate].
      apply key_eqb_eq in Ef as ->. f_equal. eauto.
    + eapply find_none in Ef; eauto. unfold kmatch in Ef. rewrite E, key_eqb_refl in Ef. discriminate.
  - intros q Ef. apply find_some in Ef as [_ Ef]. unfold kmatch in Ef.
    destruct (g q) as [[k' w]|] eqn:Eq; [|discriminate]. apply key_eqb_eq in Ef as ->. eauto.
Qed.

(** ** Appending *)
Lemma PI_attach a H size g k v : PI a H size g 0 -> length a < size -> key_ok k ->
  exists a' H', attach_new a H size (hf (key_bytes k)) (ki k) (ks k) (Some v) = Ok (a', H') /\
    length a' = S (length a) /\ PI a' H' size (fupd g (length a) (Some (k, v))) 0.
Proof.
  intros (F & C & Ct & D) L Hk.
  destruct (attach_new_ok a H size (fo size g) (hf (key_bytes k)) (ki k) (ks k) (Some v) F C L)
    as (a' & H' & E & L' & F' & C' & G1 & G2 & G3).
  exists a', H'. split; auto. split; auto.
  assert (X : forall p, fo size (fupd g (length a) (Some (k, v))) p =
     fupd (fo size g) (length a) (Some (hashpos (hf (key_bytes k)) size)) p).
  { intros p. unfold fo. destruct (Nat.eq_dec p (length a)) as [->|Dp]; [now rewrite !fupd_same|now rewrite !fupd_other]. }
  split; [eapply fits_ext; eauto|]. split; [eapply chains_ext; eauto|]. split.
  - intros p k' v'. destruct (Nat.eq_dec p (length a)) as [->|Dp].
    + rewrite fupd_same. intros [= <- <-]. auto.
    + rewrite fupd_other by auto. intros K. destruct (Ct _ _ _ K) as [c1 c2]. split; auto. rewrite G1; auto.
      assert (g p <> None) as Q by congruence.
      destruct F as (_ & _ & _ & _ & Fb). destruct (fo size g p) as [t|] eqn:Et.
      * now apply Fb in Et.
      * now apply fo_None in Et.
  - intros p _. destruct (Nat.eq_dec p (length a)) as [->|Dp]; [rewrite fupd_same; discriminate|].
    rewrite fupd_other by auto. intros K. rewrite G3; auto; [|now apply fo_None]. apply D; auto. lia.
Qed.

(** ** Rebuilding *)
Definition reps (n : pnode V) (o : option (key * V)) : Prop :=
  match o with
  | None => pprev n = NIL
  | Some (k, v) => pprev n <> NIL /\ pint n = ki k /\ pstr n = ks k /\ pval n = Some v /\ key_ok k
  end.

Lemma PI_reps a H size A : PI a H size (fun p => nth p A None) 0 -> length a = length A -> Forall2 reps a A.
Proof.
  intros I L. assert (forall p n o, nth_error a p = Some n -> nth_error A p = Some o -> reps n o) as K.
  { intros p n o E1 E2. destruct o as [[k v]|].
    - apply nth_Some in E2. destruct (PI_live _ _ _ _ _ _ _ I E2) as [_ Q]. destruct I as (_ & _ & Ct & _).
      destruct (Ct _ _ _ E2) as [G Hk]. unfold gd in G. unfold gp in Q. rewrite E1 in G, Q. cbn in G. injection G as g1 g2 g3.
      cbn. auto 6.
    - destruct I as (_ & _ & _ & D). cbn. specialize (D p (Nat.le_0_l _)). unfold gp in D. rewrite E1 in D.
      apply D. now erewrite nth_error_nth by eauto. }
  clear I. revert A L K. induction a as [|n a IH]; intros [|o A] L K; cbn in L; try discriminate; constructor.
  - apply (K 0); reflexivity.
  - apply IH; [lia|]. intros p. apply (K (S p)).
Qed.

Lemma rebuild_ok size : forall old A a H m, Forall2 reps old A ->
  PI a H size (fun p => nth p (map Some m) None) 0 -> length a = length m -> length m + length (entries A) <= size ->
  exists a' H', rebuild hf old a H size = Ok (a', H') /\ length a' = length m + length (entries A) /\
    PI a' H' size (fun p => nth p (map Some (m ++ entries A)) None) 0.
Proof.
  intros old A a H m R. revert a H m. induction R as [|n o old A R1 R IH]; intros a H m I L1 L2; cbn [rebuild].
  - exists a, H. cbn [entries flat_map length] in *. rewrite app_nil_r, Nat.add_0_r. auto.
  - destruct o as [[k v]|]; cbn [reps] in R1.
    + destruct R1 as (r1 & r2 & r3 & r4 & r5). apply N.eqb_neq in r1. rewrite r1.
      assert (E : match pstr n with Some _ => pint n | None => hf (pat_bytes (pint n)) end = hf (key_bytes k)).
      { rewrite r2, r3. destruct k; reflexivity. }
      rewrite E, r2, r3, r4. cbn [entries flat_map app length] in L2. fold (entries A) in L2.
      destruct (PI_attach a H size _ k v I) as (a1 & H1 & E1 & L3 & I1); [lia|auto|]. rewrite E1. cbn [bind].
      destruct (IH a1 H1 (m ++ [(k, v)])) as (a2 & H2 & E2 & L4 & I2).
      * eapply PI_ext; [exact I1|]. intros p. cbn beta. rewrite map_app. cbn [map].
        destruct (Nat.eq_dec p (length a)) as [->|Dp].
        -- rewrite fupd_same, app_nth2; rewrite map_length; [|lia]. now rewrite L1, Nat.sub_diag.
        -- rewrite fupd_other by auto. destruct (Nat.lt_ge_cases p (length m)) as [Q|Q].
           ++ apply app_nth1. now rewrite map_length.
           ++ rewrite !nth_overflow; auto; rewrite ?app_length, map_length; cbn; lia.
      * rewrite app_length; cbn. lia.
      * rewrite app_length; cbn. lia.
      * exists a2, H2. split; auto. rewrite app_length in L4. cbn [length] in L4.
        cbn [entries flat_map app length]. fold (entries A). split; [lia|]. now rewrite <- app_assoc in I2.
    + rewrite R1. change (N.eqb NIL NIL) with true. cbv iota. apply IH; auto.
Qed.

Lemma PI_nil j d : j <= 30 -> PI [] (repeat NIL (2 ^ j)) (2 ^ j) (fun _ => None) d.
Proof.
  intros L. destruct (pow_small j L) as [Sm P]. split; [|split; [|split]].
  - split; [apply repeat_length|]. split; auto. split; auto. split; [cbn; lia|]. unfold fo. cbn. discriminate.
  - exists (fun _ => []). intros s Hs. split; [|split; [constructor|split; [exact I|]]].
    + rewrite nth_error_repeat by auto. reflexivity.
    + intros p. unfold fo. cbn. split; [tauto|discriminate].
  - discriminate.
  - intros [|p] _ _; reflexivity.
Qed.

(** ** Compaction in place *)
Lemma PI_move a H size g x y e n : PI a H size g y -> g y = Some e -> g x = None -> x < y -> rd a y = Ok n ->
  exists a' H', move_node a H x n = Ok (a', H') /\ length a' = length a /\
    PI a' H' size (fupd (fupd g y None) x (Some e)) (S y).
Proof.
  intros I Ey Ex Lxy R. destruct (PI_live _ _ _ _ _ _ _ I Ey) as [Ly _]. destruct I as (F & C & Ct & D).
  destruct (move_node_ok a H size (fo size g) x y (hashpos (hf (key_bytes (fst e))) size) n) as
    (a' & H' & E & L' & F' & C' & G1 & G2); auto.
  { unfold fo. now rewrite Ey. }
  { now apply fo_None. }
  { lia. }
  exists a', H'. split; auto. split; auto.
  assert (X : forall p, fo size (fupd (fupd g y None) x (Some e)) p =
     fupd (fupd (fo size g) y None) x (Some (hashpos (hf (key_bytes (fst e))) size)) p).
  { intros p. unfold fo. destruct (Nat.eq_dec p x) as [->|Dp]; [now rewrite !fupd_same|].
    rewrite !(fupd_other _ x) by auto. destruct (Nat.eq_dec p y) as [->|Dq]; [now rewrite !fupd_same|now rewrite !fupd_other]. }
  split; [eapply fits_ext; eauto|]. split; [eapply chains_ext; eauto|]. split.
  - intros p k v. destruct (Nat.eq_dec p x) as [->|Dp].
    + rewrite fupd_same. intros [= ->]. destruct (Ct _ _ _ Ey) as [c1 c2]. split; auto. rewrite G1, fupd_same. auto.
    + rewrite fupd_other by auto. destruct (Nat.eq_dec p y) as [->|Dq]; [rewrite fupd_same; discriminate|].
      rewrite fupd_other by auto. intros K. destruct (Ct _ _ _ K) as [c1 c2]. split; auto.
      rewrite G1, fupd_other; auto.
  - intros p Lp. destruct (Nat.eq_dec p x) as [->|Dp]; [rewrite fupd_same; discriminate|].
    rewrite !fupd_other by (auto; lia). intros K. rewrite G2; auto; [|now apply fo_None]. apply D; auto. lia.
Qed.

Lemma opt_loop_ok size A cnt : forall a H x y g, y + cnt = length A -> length a = length A -> x < y ->
  PI a H size g y -> x = length (entries (firstn y A)) ->
  (forall p, p < x -> g p = nth_error (entries (firstn y A)) p) ->
  (forall p, x <= p < y -> g p = None) -> (forall p, y <= p -> g p = nth p A None) ->
  exists a' H', opt_loop cnt a H x y = Ok (a', H', length (entries A)) /\ length a' = length a /\
    exists g', PI a' H' size g' (length A) /\ (forall p, g' p = nth_error (entries A) p).
Proof.
  induction cnt as [|c IH]; intros a H x y g Ly La Lxy I Ex G1 G2 G3; cbn [opt_loop].
  - rewrite Nat.add_0_r in Ly. subst y. rewrite firstn_all in *. subst x. eexists _, _; split; [reflexivity|]. split; auto.
    exists g. split; auto. intros p. destruct (Nat.lt_ge_cases p (length (entries A))) as [Q|Q]; auto.
    rewrite (proj2 (nth_error_None _ _)) by auto. destruct (Nat.lt_ge_cases p (length A)) as [Q'|Q'].
    + apply G2. lia.
    + rewrite G3 by auto. now apply nth_overflow.
  - assert (Lya : y < length a) by lia. destruct (rd_lt a y Lya) as (n & R & _). rewrite R. cbn [bind].
    destruct (rd_g _ _ _ R) as [Gp _]. rewrite <- Gp.
    assert (Fy : firstn (S y) A = firstn y A ++ [nth y A None]).
    { clear - Ly. assert (y < length A) as L by lia. clear Ly. revert A L.
      induction y as [|y IH]; intros [|o A] L; cbn in L; try lia; [reflexivity|]. cbn. f_equal. apply IH. lia. }
    destruct (nth y A None) as [e|] eqn:Ey.
    + assert (Gy : g y = Some e) by (rewrite G3; auto).
      destruct (PI_live _ _ _ _ _ _ _ I Gy) as [_ Q]. apply N.eqb_neq in Q. rewrite Q.
      destruct (PI_move a H size g x y e n) as (a1 & H1 & E & L1 & I1); auto; try (apply G2; lia).
      rewrite E. cbn [bind].
      assert (Es : entries (firstn (S y) A) = entries (firstn y A) ++ [e]).
      { rewrite Fy, entries_app. reflexivity. }
      destruct (IH a1 H1 (S x) (S y) (fupd (fupd g y None) x (Some e))) as (a2 & H2 & E2 & L2 & g' & I2 & G'); auto; try lia.
      * rewrite Es, app_length. cbn. lia.
      * intros p Lp. rewrite Es. destruct (Nat.eq_dec p x) as [->|Dp].
        -- rewrite fupd_same. rewrite nth_error_app2 by lia. subst x. now rewrite Nat.sub_diag.
        -- rewrite !fupd_other by lia. rewrite nth_error_app1 by lia. apply G1. lia.
      * intros p Lp. rewrite (fupd_other _ x) by lia. destruct (Nat.eq_dec p y) as [->|Dq]; [now rewrite fupd_same|].
        rewrite fupd_other by auto. apply G2. lia.
      * intros p Lp. rewrite !fupd_other by lia. apply G3. lia.
      * exists a2, H2. split; auto. split; [lia|]. eauto.
    + assert (Gy : g y = None) by (rewrite G3; auto).
      pose proof I as (_ & _ & _ & D). rewrite (D y) by auto. change (N.eqb NIL NIL) with true. cbv iota.
      assert (Es : entries (firstn (S y) A) = entries (firstn y A)).
      { rewrite Fy, entries_app. cbn. apply app_nil_r. }
      apply (IH a H x (S y) g); auto; try lia.
      * destruct I as (i1 & i2 & i3 & i4). split; auto. split; auto. split; auto. intros p Lp. apply i4. lia.
      * now rewrite Es.
      * rewrite Es. auto.
      * intros p Lp. destruct (Nat.eq_dec p y) as [->|Dq]; auto. apply G2. lia.
      * intros p Lp. apply G3. lia.
Qed.

Lemma first_unset_ok a A : Forall2 reps a A -> first_unset a <= length A /\
  entries (firstn (first_unset a) A) = entries (firstn (S (first_unset a)) A) /\
  map Some (entries (firstn (first_unset a) A)) = firstn (first_unset a) A /\
  (first_unset a < length A -> nth (first_unset a) A None = None) /\
  (first_unset a = length A -> entries A = entries A /\ length (entries A) = length A).
Proof.
  induction 1 as [|n o a A R _ IH]; cbn [first_unset].
  - cbn. repeat split; auto.
  - destruct o as [[k v]|]; cbn in R.
    + destruct R as [R _]. apply N.eqb_neq in R. rewrite R. destruct IH as (h1 & h2 & h3 & h4 & h5).
      cbn [length firstn entries flat_map app] in *. unfold entries in *.
      split; [lia|]. split; [now rewrite h2|]. split; [cbn [map]; now rewrite h3|]. split.
      * intros Q. apply h4. lia.
      * intros Q. split; auto. cbn [app length]. destruct h5 as [_ h5]; [lia|]. lia.
    + rewrite R. change (N.eqb NIL NIL) with true. cbv iota. cbn. repeat split; auto; try lia.
Qed.

Lemma PI_cut a H size g m : PI a H size g (length a) -> (forall p, g p = nth_error m p) -> length m <= length a ->
  PI (firstn (length m) a) H size (fun p => nth p (map Some m) None) 0.
Proof.
  intros ((f1 & f2 & f3 & f4 & f5) & C & Ct & D) G L.
  assert (X : forall p, nth p (map Some m) None = g p).
  { intros p. rewrite G. destruct (nth_error m p) as [e|] eqn:E.
    - apply nth_error_nth. now apply map_nth_error.
    - apply nth_overflow. rewrite map_length. now apply nth_error_None. }
  assert (Y : forall p, fo size (fun p => nth p (map Some m) None) p = fo size g p) by (intros p; unfold fo; now rewrite X).
  assert (Z : forall p, p < length m -> nth_error (firstn (length m) a) p = nth_error a p).
  { intros p Lp. rewrite <- (firstn_skipn (length m) a) at 2. rewrite nth_error_app1; auto.
    rewrite firstn_length. lia. }
  assert (W : forall p, g p <> None -> p < length m) by (intros p; rewrite G; apply nth_error_Some).
  split; [|split; [|split]].
  - split; auto. split; auto. split; auto. rewrite firstn_length. split; [lia|]. intros p s. rewrite Y. intros K.
    apply f5 in K as K'. split; [|lia]. assert (p < length m); [|lia]. apply W. intros Q. apply fo_None with (size:=size) in Q. congruence.
  - eapply pchains_frame; [exact C| |exact Y]. intros p Hp.
    assert (p < length m) by (apply W; intros Q; apply Hp; now apply fo_None). unfold gp, gn. now rewrite Z.
  - intros p k v. rewrite X. intros K. unfold gd. rewrite Z by (apply W; congruence). now apply Ct.
  - intros p _. rewrite X. intros K. unfold gp. destruct (nth_error (firstn (length m) a) p) as [n|] eqn:E; auto.
    exfalso. assert (p < length (firstn (length m) a)) as Q by (apply nth_error_Some; congruence).
    rewrite firstn_length in Q. rewrite G in K. apply nth_error_None in K. lia.
Qed.
End T.
End P.
