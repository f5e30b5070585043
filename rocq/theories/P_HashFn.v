(** The hash functions compute their published definitions. *)
From Verif Require Import Base S_HashFn M_HashFn.
Local Arguments w64 : simpl never.
Local Arguments w32 : simpl never.
Local Arguments N.mul : simpl never.
Local Arguments N.add : simpl never.
Local Arguments N.of_nat : simpl never.
Local Arguments N.shiftl : simpl never.
Local Arguments N.pow : simpl never.

Definition u64 (x : N) : Prop := (x < 2 ^ 64)%N.

Lemma lor_add x y k : (y < 2 ^ k)%N -> N.lor (x * 2 ^ k) y = (x * 2 ^ k + y)%N.
Proof.
  intros L. assert (E : N.land (x * 2 ^ k) y = 0%N).
  { apply N.bits_inj_0. intros n. rewrite N.land_spec. destruct (N.lt_ge_cases n k) as [K|K].
    - rewrite N.mul_pow2_bits_low by auto. reflexivity.
    - destruct (N.eq_dec y 0) as [->|Y]; [now rewrite N.bits_0, andb_false_r|].
      rewrite (N.bits_above_log2 y), andb_false_r; auto. apply N.lt_le_trans with k; auto. apply N.log2_lt_pow2; lia. }
  rewrite N.add_nocarry_lxor by auto. now rewrite N.lxor_lor.
Qed.

Lemma u64_lxor x y : u64 x -> u64 y -> u64 (N.lxor x y).
Proof.
  unfold u64. intros Hx Hy. destruct (N.eq_dec (N.lxor x y) 0) as [->|E]; [reflexivity|].
  apply N.log2_lt_pow2; [lia|]. eapply N.le_lt_trans; [apply N.log2_lxor|].
  apply N.max_lub_lt.
  - destruct (N.eq_dec x 0) as [->|X]; [reflexivity|]. apply N.log2_lt_pow2; lia.
  - destruct (N.eq_dec y 0) as [->|Y]; [reflexivity|]. apply N.log2_lt_pow2; lia.
Qed.
Lemma u64_w x : u64 (w64 x).
Proof. unfold u64, w64, W64. apply N.mod_lt. discriminate. Qed.

Lemma rotl_rot x b : u64 x -> (0 < b < 64)%N -> rotl x b = rot64 b x /\ u64 (rot64 b x).
Proof.
  unfold u64. intros Hx Hb. unfold rotl, rot64. rewrite N.shiftl_mul_pow2, N.shiftr_div_pow2. unfold w64, W64.
  assert (P : (2 ^ 64 = 2 ^ (64 - b) * 2 ^ b)%N) by (rewrite <- N.pow_add_r; f_equal; lia).
  assert (P0 : (0 < 2 ^ b)%N) by (apply N.neq_0_lt_0, N.pow_nonzero; lia).
  assert (P1 : (0 < 2 ^ (64 - b))%N) by (apply N.neq_0_lt_0, N.pow_nonzero; lia).
  assert (D : (x / 2 ^ (64 - b) < 2 ^ b)%N) by (apply N.div_lt_upper_bound; lia).
  rewrite P. rewrite N.mul_mod_distr_r by lia. split; [now apply lor_add|].
  assert (x mod 2 ^ (64 - b) < 2 ^ (64 - b))%N by (apply N.mod_lt; lia). nia.
Qed.

Definition s64 (v : state) : Prop := let '(a, b, c, d) := v in u64 a /\ u64 b /\ u64 c /\ u64 d.

Lemma sipround_ok v : s64 v -> sipround v = sip_round v /\ s64 (sip_round v).
Proof.
  destruct v as [[[v0 v1] v2] v3]. intros (h0 & h1 & h2 & h3). unfold sipround, sip_round.
  change plus64 with (fun x y => w64 (x + y)). cbv beta.
  destruct (rotl_rot v1 13 h1) as [E1 b1]; [lia|]. rewrite E1.
  destruct (rotl_rot v3 16 h3) as [E2 b2]; [lia|]. rewrite E2.
  set (x0 := w64 (v0 + v1)). set (x2 := w64 (v2 + v3)).
  assert (u64 x0) as c0 by apply u64_w. assert (u64 x2) as c2 by apply u64_w.
  destruct (rotl_rot x0 32 c0) as [E3 b3]; [lia|]. rewrite E3.
  set (x1 := N.lxor (rot64 13 v1) x0). set (x3 := N.lxor (rot64 16 v3) x2).
  assert (u64 x1) as c1 by now apply u64_lxor. assert (u64 x3) as c3 by now apply u64_lxor.
  destruct (rotl_rot x1 17 c1) as [E4 b4]; [lia|]. rewrite E4.
  destruct (rotl_rot x3 21 c3) as [E5 b5]; [lia|]. rewrite E5.
  set (y2 := w64 (x2 + x1)). set (y0 := w64 (rot64 32 x0 + x3)).
  assert (u64 y0) as d0 by apply u64_w. assert (u64 y2) as d2 by apply u64_w.
  destruct (rotl_rot y2 32 d2) as [E6 b6]; [lia|]. rewrite E6.
  split; [reflexivity|]. split; auto. split; [now apply u64_lxor|]. split; auto. now apply u64_lxor.
Qed.

Lemma rounds_ok n : forall v, s64 v -> rounds n v = Nat.iter n sip_round v /\ s64 (Nat.iter n sip_round v).
Proof.
  induction n as [|n IH]; intros v H; [split; auto|]. cbn [rounds]. destruct (sipround_ok v H) as [-> H'].
  destruct (IH _ H') as [-> B].
  assert (E : Nat.iter n sip_round (sip_round v) = Nat.iter (S n) sip_round v).
  { clear. induction n as [|n IH]; auto. cbn [Nat.iter nat_rect] in *. unfold Nat.iter in *. cbn. now rewrite IH. }
  rewrite <- E. auto.
Qed.

Lemma absorb_ok c y v : s64 v -> u64 y -> absorb c y v = sip_compress c v y /\ s64 (sip_compress c v y).
Proof.
  destruct v as [[[v0 v1] v2] v3]. intros (h0 & h1 & h2 & h3) Hy. unfold absorb, sip_compress.
  assert (s64 (v0, v1, v2, N.lxor v3 y)) as H.
  { split; auto. split; auto. split; auto. now apply u64_lxor. }
  destruct (rounds_ok c _ H) as [-> B]. destruct (Nat.iter c sip_round (v0, v1, v2, N.lxor v3 y)) as [[[a0 a1] a2] a3].
  destruct B as (b0 & b1 & b2 & b3). split; auto. split; [now apply u64_lxor|]. auto.
Qed.

Lemma le_lt l : byteList l -> (le l < 2 ^ (8 * N.of_nat (length l)))%N.
Proof.
  induction l as [|b l IH]; intros H; [reflexivity|]. cbn [le length].
  pose proof (Forall_inv H) as Hb. apply Forall_inv_tail in H. apply IH in H. unfold isByte in Hb.
  replace (8 * N.of_nat (S (length l)))%N with (8 + 8 * N.of_nat (length l))%N by lia. rewrite N.pow_add_r.
  change (2 ^ 8)%N with 256%N. nia.
Qed.
Lemma le_value_ok l : byteList l -> le_value l = le l.
Proof.
  induction l as [|b l IH]; intros H; [reflexivity|]. cbn [le le_value]. rewrite IH by now apply Forall_inv_tail in H.
  apply Forall_inv in H. rewrite N.shiftl_mul_pow2, N.lor_comm. rewrite lor_add by exact H.
  change (2 ^ 8)%N with 256%N. lia.
Qed.

Lemma byteList_app a b : byteList (a ++ b) <-> byteList a /\ byteList b.
Proof. apply Forall_app. Qed.

Lemma slice_mid (a s r : bytes) n : length s = n -> slice (a ++ s ++ r) (length a) n = Ok s.
Proof.
  intros <-. rewrite slice_in.
  - f_equal. rewrite skipn_app, Nat.sub_diag, skipn_all. cbn. now rewrite firstn_app, Nat.sub_diag, firstn_all, app_nil_r.
  - rewrite !app_length. lia.
Qed.

Lemma firstn_len {A} (w r : list A) n : length w = n -> firstn n (w ++ r) = w.
Proof. intros <-. now rewrite firstn_app, Nat.sub_diag, firstn_all, app_nil_r. Qed.
Lemma skipn_len {A} (w r : list A) n : length w = n -> skipn n (w ++ r) = r.
Proof. intros <-. now rewrite skipn_app, Nat.sub_diag, skipn_all. Qed.

Lemma split8 (l : bytes) k : length l = 8 * S k -> exists w r, l = w ++ r /\ length w = 8 /\ length r = 8 * k.
Proof.
  intros L. exists (firstn 8 l), (skipn 8 l). split; [now rewrite firstn_skipn|]. rewrite firstn_length, skipn_length. lia.
Qed.

Lemma words8_app n : forall l r, length l = 8 * n -> words8 n (l ++ r) = words8 n l.
Proof.
  induction n as [|n IH]; intros l r L; auto. destruct (split8 l n L) as (w & t & -> & Lw & Lt). cbn [words8].
  rewrite <- app_assoc. rewrite !(firstn_len _ _ _ Lw), !(skipn_len _ _ _ Lw). now rewrite IH.
Qed.
Lemma words8_snoc n : forall l w, length l = 8 * n -> length w = 8 -> words8 (S n) (l ++ w) = words8 n l ++ [le w].
Proof.
  induction n as [|n IH]; intros l w L Lw.
  - destruct l; [|discriminate]. cbn [app]. change (words8 1 w) with [le (firstn 8 w)]. now rewrite <- Lw, firstn_all.
  - destruct (split8 l n L) as (u & t & -> & Lu & Lt). rewrite <- app_assoc.
    change (words8 (S (S n)) (u ++ t ++ w)) with (le (firstn 8 (u ++ t ++ w)) :: words8 (S n) (skipn 8 (u ++ t ++ w))).
    change (words8 (S n) (u ++ t)) with (le (firstn 8 (u ++ t)) :: words8 n (skipn 8 (u ++ t))).
    rewrite !(firstn_len _ _ _ Lu), !(skipn_len _ _ _ Lu). now rewrite IH.
Qed.

Lemma sip_loop_ok c n : forall m pre post v, length m = 8 * n -> byteList m -> s64 v ->
  sip_loop n c (pre ++ m ++ post) (length pre) v = Ok (fold_left (sip_compress c) (words8 n m) v) /\
  s64 (fold_left (sip_compress c) (words8 n m) v).
Proof.
  induction n as [|n IH]; intros m pre post v L Hm Hv; [split; auto|].
  destruct (split8 m n L) as (w & r & -> & Lw & Lr). apply byteList_app in Hm as [Hw Hr].
  cbn [sip_loop]. unfold load. rewrite <- app_assoc. rewrite (slice_mid pre w (r ++ post) 8 Lw). cbn [bind].
  rewrite le_value_ok by auto. cbn [words8 fold_left].
  rewrite !(firstn_len _ _ _ Lw), !(skipn_len _ _ _ Lw).
  assert (Hy : u64 (le w)) by (pose proof (le_lt w Hw) as Q; rewrite Lw in Q; exact Q).
  destruct (absorb_ok c (le w) v Hv Hy) as [-> B].
  rewrite app_assoc. replace (length pre + 8) with (length (pre ++ w)) by (rewrite app_length; lia).
  apply IH; auto.
Qed.

(** The last word. *)
Lemma sip_tail_ok : forall t pre x, byteList t -> forall post,
  sip_tail (length t) (pre ++ t ++ post) (length pre) (x * 2 ^ (8 * N.of_nat (length t))) = Ok (x * 2 ^ (8 * N.of_nat (length t)) + le t)%N.
Proof.
  intros t. induction t as [|b t IH] using rev_ind; intros pre x Ht post.
  - cbn. now rewrite N.add_0_r.
  - apply byteList_app in Ht as [Ht Hb]. apply Forall_inv in Hb. rewrite app_length. cbn [length]. rewrite Nat.add_1_r.
    cbn [sip_tail]. replace (rd (pre ++ (t ++ [b]) ++ post) (length pre + length t)) with (Ok b).
    2:{ unfold rd. rewrite nth_error_app2 by lia. replace (length pre + length t - length pre) with (length t) by lia.
        rewrite <- app_assoc. now rewrite nth_error_app2, Nat.sub_diag by lia. }
    cbn [bind]. rewrite N.shiftl_mul_pow2.
    replace (8 * N.of_nat (S (length t)))%N with (8 + 8 * N.of_nat (length t))%N by lia. rewrite N.pow_add_r.
    set (P := (2 ^ (8 * N.of_nat (length t)))%N).
    assert (E : N.lor (x * (2 ^ 8 * P)) (b * P) = ((x * 2 ^ 8 + b) * P)%N).
    { rewrite N.mul_assoc. unfold P. rewrite <- !N.shiftl_mul_pow2, <- N.shiftl_lor, !N.shiftl_mul_pow2. f_equal.
      now apply lor_add. }
    rewrite E. rewrite <- app_assoc. unfold P. rewrite IH by auto. f_equal.
    assert (F : le (t ++ [b]) = (le t + b * P)%N).
    { unfold P. clear. induction t as [|a t IH]; cbn [app le length].
      - change (8 * N.of_nat 0)%N with 0%N. rewrite N.pow_0_r. lia.
      - rewrite IH. replace (8 * N.of_nat (S (length t)))%N with (8 + 8 * N.of_nat (length t))%N by lia.
        rewrite N.pow_add_r. change (2 ^ 8)%N with 256%N. lia. }
    rewrite F. fold P. lia.
Qed.

Lemma le_zeros t k b : le (t ++ repeat 0%N k ++ [b]) = (le t + 2 ^ (8 * N.of_nat (length t + k)) * b)%N.
Proof.
  induction t as [|a t IH]; cbn [app le length].
  - cbn [Nat.add]. induction k as [|k IH]; cbn [repeat app le].
    + change (8 * N.of_nat 0)%N with 0%N. rewrite N.pow_0_r. lia.
    + rewrite IH. replace (8 * N.of_nat (S k))%N with (8 + 8 * N.of_nat k)%N by lia. rewrite N.pow_add_r.
      change (2 ^ 8)%N with 256%N. lia.
  - rewrite IH. cbn [Nat.add]. replace (8 * N.of_nat (S (length t + k)))%N with (8 + 8 * N.of_nat (length t + k))%N by lia.
    rewrite N.pow_add_r. change (2 ^ 8)%N with 256%N. lia.
Qed.

Lemma siphash_ok b size k1 k2 c d : size <= length b -> byteList b -> u64 k1 -> u64 k2 ->
  get_siphash b size k1 k2 c d = Ok (siphash c d k1 k2 (firstn size b)).
Proof.
  intros L Hb H1 H2. unfold get_siphash, siphash.
  set (m := firstn size b). assert (Lm : length m = size) by (unfold m; rewrite firstn_length; lia).
  assert (Em : b = m ++ skipn size b) by (unfold m; now rewrite firstn_skipn).
  assert (Hm : byteList m) by (unfold m; apply Forall_forall; intros x Hx; eapply Forall_forall; [exact Hb|];
    rewrite <- (firstn_skipn size b); apply in_or_app; now left).
  set (q := size / 8). set (left := size mod 8).
  assert (Q : size = 8 * q + left) by (apply Nat.div_mod; lia).
  assert (Lleft : left < 8) by (apply Nat.mod_upper_bound; lia).
  replace (size - left) with (8 * q) by lia.
  replace (8 * q / 8) with q by (rewrite Nat.mul_comm, Nat.div_mul; lia).
  rewrite Lm. fold q left.
  set (h := firstn (8 * q) m). set (t := skipn (8 * q) m).
  assert (Et : m = h ++ t) by (unfold h, t; now rewrite firstn_skipn).
  assert (Lh : length h = 8 * q) by (unfold h; rewrite firstn_length; lia).
  assert (Lt : length t = left) by (unfold t; rewrite skipn_length; lia).
  rewrite Et in Hm. apply byteList_app in Hm as [Hh Ht].
  rewrite Em, Et, <- app_assoc.
  assert (Hv : s64 (N.lxor 8317987319222330741 k1, N.lxor 7237128888997146477 k2, N.lxor 7816392313619706465 k1, N.lxor 8387220255154660723 k2)).
  { split; [|split; [|split]]; apply u64_lxor; auto; reflexivity. }
  destruct (sip_loop_ok c q h [] (t ++ skipn size b) _ Lh Hh Hv) as [E B]. cbn [app length] in E. rewrite E. cbn [bind].
  assert (Er : w64 (N.shiftl (N.of_nat size) 56) = ((N.of_nat size mod 256) * 2 ^ 56)%N).
  { rewrite N.shiftl_mul_pow2. unfold w64, W64. change (2 ^ 64)%N with (256 * 2 ^ 56)%N. rewrite (N.mul_mod_distr_r (N.of_nat size) 256 (2 ^ 56)); [reflexivity|discriminate|discriminate]. }
  rewrite Er.
  assert (Ep : (2 ^ 56 = 2 ^ (8 * N.of_nat (7 - left)) * 2 ^ (8 * N.of_nat left))%N).
  { rewrite <- N.pow_add_r. f_equal. lia. }
  rewrite Ep, N.mul_assoc. rewrite <- Lh, <- Lt.
  rewrite sip_tail_ok by auto. cbn [bind]. rewrite <- N.mul_assoc.
  set (lastw := ((N.of_nat size mod 256) * (2 ^ (8 * N.of_nat (7 - length t)) * 2 ^ (8 * N.of_nat (length t))) + le t)%N).
  assert (El : lastw = le (t ++ repeat 0%N (7 - length t) ++ [N.of_nat size mod 256]%N)).
  { rewrite le_zeros. unfold lastw. rewrite <- N.pow_add_r.
    replace (8 * N.of_nat (7 - length t) + 8 * N.of_nat (length t))%N with (8 * N.of_nat (length t + (7 - length t)))%N by lia. lia. }
  assert (Hl : byteList (t ++ repeat 0%N (7 - length t) ++ [N.of_nat size mod 256]%N)).
  { apply byteList_app. split; auto. apply byteList_app. split.
    - apply Forall_forall. intros x Hx. apply repeat_spec in Hx as ->. reflexivity.
    - constructor; [|constructor]. apply N.mod_lt. discriminate. }
  assert (Ll : length (t ++ repeat 0%N (7 - length t) ++ [N.of_nat size mod 256]%N) = 8).
  { rewrite !app_length, repeat_length. cbn [length]. lia. }
  assert (Hlast : u64 lastw) by (rewrite El; pose proof (le_lt _ Hl) as K; rewrite Ll in K; exact K).
  assert (Ew : words8 (S q) (padded (h ++ t)) = words8 q h ++ [lastw]).
  { unfold padded. rewrite <- Et, Lm. fold left. rewrite Et, <- app_assoc. rewrite <- Lt. rewrite words8_snoc by auto.
    now rewrite El. }
  rewrite Ew, fold_left_app. cbn [fold_left].
  rewrite !(N.lxor_comm k1), !(N.lxor_comm k2).
  destruct (absorb_ok c lastw _ B Hlast) as [-> B2].
  destruct (sip_compress c _ lastw) as [[[a0 a1] a2] a3]. destruct B2 as (b0 & b1 & b2 & b3).
  assert (s64 (a0, a1, N.lxor a2 255, a3)) as B3.
  { split; auto. split; auto. split; auto. apply u64_lxor; auto. reflexivity. }
  destruct (rounds_ok d _ B3) as [-> _].
  destruct (Nat.iter d sip_round (a0, a1, N.lxor a2 255, a3)) as [[[z0 z1] z2] z3].
  f_equal. now rewrite !N.lxor_assoc.
Qed.

(** ** The x33 hashes *)
Lemma djb32_ok r y : djb32 r y = x33 32 r y.
Proof.
  unfold djb32, x33. f_equal. rewrite N.shiftl_mul_pow2. unfold w32, W32. rewrite N.add_mod_idemp_l by discriminate.
  f_equal. change (2 ^ 5)%N with 32%N. lia.
Qed.
Lemma djb64_ok r y : djb64 r y = x33 64 r y.
Proof.
  unfold djb64, x33. f_equal. rewrite N.shiftl_mul_pow2. unfold w64, W64. rewrite N.add_mod_idemp_l by discriminate.
  f_equal. change (2 ^ 5)%N with 32%N. lia.
Qed.

Lemma djb_loop_ok n : forall m pre post r, length m = 4 * n -> byteList m ->
  djb_loop n (pre ++ m ++ post) (length pre) r = Ok (fold_left (x33 32) (words4 n m) r).
Proof.
  induction n as [|n IH]; intros m pre post r L Hm; [reflexivity|].
  assert (exists w t, m = w ++ t /\ length w = 4 /\ length t = 4 * n) as (w & t & -> & Lw & Lt).
  { exists (firstn 4 m), (skipn 4 m). split; [now rewrite firstn_skipn|]. rewrite firstn_length, skipn_length. lia. }
  apply byteList_app in Hm as [Hw Ht]. cbn [djb_loop]. unfold load. rewrite <- app_assoc.
  rewrite (slice_mid pre w (t ++ post) 4 Lw). cbn [bind]. rewrite le_value_ok by auto. cbn [words4 fold_left].
  rewrite !(firstn_len _ _ _ Lw), !(skipn_len _ _ _ Lw).
  rewrite app_assoc. replace (length pre + 4) with (length (pre ++ w)) by (rewrite app_length; lia).
  rewrite djb32_ok. apply IH; auto.
Qed.
Lemma djb_tail_ok : forall t pre r post,
  djb_tail (length t) (pre ++ t ++ post) (length pre) r = Ok (fold_left (x33 32) (rev t) r).
Proof.
  intros t. induction t as [|b t IH] using rev_ind; intros pre r post; [reflexivity|].
  rewrite app_length. cbn [length]. rewrite Nat.add_1_r. cbn [djb_tail].
  replace (rd (pre ++ (t ++ [b]) ++ post) (length pre + length t)) with (Ok b).
  2:{ unfold rd. rewrite nth_error_app2 by lia. replace (length pre + length t - length pre) with (length t) by lia.
      rewrite <- app_assoc. now rewrite nth_error_app2, Nat.sub_diag by lia. }
  cbn [bind]. rewrite <- app_assoc, IH, rev_app_distr. cbn [rev app fold_left]. now rewrite djb32_ok.
Qed.
Lemma words4_app n : forall l r, length l = 4 * n -> words4 n (l ++ r) = words4 n l.
Proof.
  induction n as [|n IH]; intros l r L; auto.
  assert (exists w t, l = w ++ t /\ length w = 4 /\ length t = 4 * n) as (w & t & -> & Lw & Lt).
  { exists (firstn 4 l), (skipn 4 l). split; [now rewrite firstn_skipn|]. rewrite firstn_length, skipn_length. lia. }
  cbn [words4]. rewrite <- app_assoc. rewrite !(firstn_len _ _ _ Lw), !(skipn_len _ _ _ Lw). now rewrite IH.
Qed.
Lemma djb_ok b size init : size <= length b -> byteList b -> get_djb b size init = Ok (djb_words init (firstn size b)).
Proof.
  intros L Hb. unfold get_djb, djb_words.
  set (m := firstn size b). assert (Lm : length m = size) by (unfold m; rewrite firstn_length; lia).
  assert (Em : b = m ++ skipn size b) by (unfold m; now rewrite firstn_skipn).
  assert (Hm : byteList m) by (unfold m; apply Forall_forall; intros x Hx; eapply Forall_forall; [exact Hb|];
    rewrite <- (firstn_skipn size b); apply in_or_app; now left).
  set (q := size / 4). set (left := size mod 4).
  assert (Q : size = 4 * q + left) by (apply Nat.div_mod; lia).
  replace (size - left) with (4 * q) by lia.
  replace (4 * q / 4) with q by (rewrite Nat.mul_comm, Nat.div_mul; lia).
  rewrite Lm. fold q. set (h := firstn (4 * q) m). set (t := skipn (4 * q) m).
  assert (Et : m = h ++ t) by (unfold h, t; now rewrite firstn_skipn).
  assert (Lh : length h = 4 * q) by (unfold h; rewrite firstn_length; lia).
  assert (Lt : length t = left) by (unfold t; rewrite skipn_length; lia).
  rewrite Et in Hm. apply byteList_app in Hm as [Hh Ht].
  assert (Ew : words4 q m = words4 q h).
  { rewrite Et. now apply words4_app. }
  rewrite Ew, fold_left_app. rewrite Em, Et, <- app_assoc.
  pose proof (djb_loop_ok q h [] (t ++ skipn size b) (w32 init) Lh Hh) as E. cbn [app length] in E. rewrite E. cbn [bind].
  rewrite <- Lh, <- Lt. apply djb_tail_ok.
Qed.

Lemma djb_str_ok m post : byteList m -> Forall (fun c => c <> 0%N) m -> forall r,
  get_djb_str (m ++ 0%N :: post) r = Ok (fold_left (x33 64) (map widen m) r).
Proof.
  induction m as [|c m IH]; intros H H0 r; [reflexivity|]. cbn [app get_djb_str map fold_left].
  pose proof (Forall_inv H) as Hc. pose proof (Forall_inv H0) as Hc0. apply Forall_inv_tail in H. apply Forall_inv_tail in H0.
  apply N.eqb_neq in Hc0. rewrite Hc0, IH by auto. rewrite djb64_ok. do 3 f_equal.
  unfold widen, isByte in *. destruct (N.ltb_spec c 128); auto. unfold w64, W64. rewrite N.mod_small; [lia|].
  change (2 ^ 64)%N with 18446744073709551616%N. lia.
Qed.
