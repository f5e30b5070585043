(** Proofs about the random generator. *)
From Verif Require Import Base S_HashFn M_HashFn P_HashFn M_Random S_Random.
Local Arguments w64 : simpl never.
Local Arguments N.shiftl : simpl never.
Local Arguments N.lor : simpl never.
Local Arguments N.land : simpl never.
Local Arguments N.pow : simpl never.
Local Arguments le_value : simpl never.

Lemma blit_head {A} (buf l : list A) : length l <= length buf -> exists buf', blit buf 0 l = Ok buf' /\ length buf' = length buf /\ (length l = length buf -> buf' = l).
Proof.
  intros L. rewrite blit_in by (cbn; lia). eexists. split; [reflexivity|]. cbn [firstn app Nat.add]. split.
  - rewrite app_length, skipn_length. lia.
  - intros E. rewrite E, skipn_all. apply app_nil_r.
Qed.

Lemma fill_ok size s i buf : sane size s -> size <= length buf ->
  exists buf', fill_in (s i) buf = Ok buf' /\ length buf' = length buf /\
    forall l, s i = RGot l -> buf' = l ++ skipn (length l) buf.
Proof.
  intros W L. specialize (W i). unfold fill_in. destruct (s i) as [e|l].
  - exists buf. repeat split; auto. discriminate.
  - destruct W as [W _]. rewrite blit_in by (cbn; lia). cbn [firstn app Nat.add]. eexists. split; [reflexivity|]. split.
    + rewrite app_length, skipn_length. lia.
    + intros l' E. now inversion E.
Qed.

Definition is_eintr (r : rres) : bool := match r with RErr true => true | _ => false end.

(** The loop over interrupted reads ends at the first other result. *)
Lemma read_loop_ok size s n : forall i buf fuel, sane size s -> size <= length buf ->
  (forall k, i <= k < i + n -> is_eintr (s k) = true) -> is_eintr (s (i + n)) = false -> n < fuel ->
  exists buf', read_loop fuel s i buf = Ok (s (i + n), buf', S (i + n)) /\ length buf' = length buf /\
    forall l, s (i + n) = RGot l -> buf' = l ++ skipn (length l) buf.
Proof.
  induction n as [|n IH]; intros i buf fuel W L B E F; (destruct fuel as [|fuel]; [lia|]); cbn [read_loop];
    destruct (fill_ok size s i buf W L) as (b1 & E1 & L1 & G1); rewrite E1; cbn [bind].
  - rewrite Nat.add_0_r in *. exists b1. split; auto. destruct (s i) as [[]|l]; auto. discriminate.
  - assert (Q : is_eintr (s i) = true) by (apply B; lia). destruct (s i) as [[]|l]; try discriminate.
    destruct (IH (S i) b1 fuel) as (b2 & E2 & L2 & G2); auto; try lia.
    + intros k K. apply B. lia. + rewrite <- E. f_equal. f_equal. lia.
    + replace (S i + n) with (i + S n) in * by lia. exists b2. split; auto. split; [lia|]. inversion E1; subst b1. exact G2.
Qed.

Lemma count_full size r : (count r =? Z.of_nat size)%Z = true <-> full size r.
Proof. rewrite Z.eqb_eq. destruct r as [e|l]; cbn; lia. Qed.

(** Among finitely many results before [i+n], the first that is not an interruption. *)
Lemma first_not_eintr s n : forall i, is_eintr (s (i + n)) = false ->
  exists m, m <= n /\ is_eintr (s (i + m)) = false /\ forall k, i <= k < i + m -> is_eintr (s k) = true.
Proof.
  induction n as [|n IH]; intros i E.
  - exists 0. repeat split; auto. lia.
  - destruct (is_eintr (s i)) eqn:Q.
    + destruct (IH (S i)) as (m & M & E1 & E2); [rewrite <- E; f_equal; f_equal; lia|].
      exists (S m). split; [lia|]. split; [rewrite <- E1; f_equal; f_equal; lia|]. intros k K.
      destruct (Nat.eq_dec k i) as [->|]; auto. apply E2. lia.
    + exists 0. rewrite Nat.add_0_r. repeat split; auto; lia.
Qed.

Lemma bytes_loop_ok size s : sane size s -> forall n i buf fuel l, size <= length buf ->
  s (i + n) = RGot l -> length l = size -> (forall k, i <= k < i + n -> ~ full size (s k)) -> n < fuel ->
  bytes_loop fuel s i buf size = Ok (true, l ++ skipn size buf, S (i + n)).
Proof.
  intros W n. induction n as [n IH] using lt_wf_ind. intros i buf fuel l L E El B F.
  destruct fuel as [|fuel]; [lia|]. cbn [bytes_loop].
  destruct (first_not_eintr s n i) as (m & M & E1 & E2); [now rewrite E|].
  destruct (read_loop_ok size s m i buf (S fuel) W L E2 E1) as (b & Eb & Lb & Gb); [lia|]. rewrite Eb. cbn [bind].
  destruct (Nat.eq_dec m n) as [->|D].
  - assert (full size (s (i + n))) as Fu by now rewrite E. apply count_full in Fu. rewrite Fu.
    rewrite E. cbn [count]. rewrite (Gb l E), El. replace (Z.of_nat size <? 0)%Z with false by lia. reflexivity.
  - assert (~ full size (s (i + m))) as Fu by (apply B; lia).
    destruct (count (s (i + m)%nat) =? Z.of_nat size)%Z eqn:C; [apply count_full in C; contradiction|].
    rewrite (IH (n - S m)) with (l := l); try lia.
    + f_equal. f_equal; [f_equal|lia]. f_equal.
      (* what earlier short reads left beyond position size is unchanged *)
      destruct (s (i + m)) as [e|lm] eqn:Em.
      * (* an error: the buffer is as before *)
        assert (G : forall f j bf r bf' j', read_loop f s j bf = Ok (r, bf', j') -> (forall x, r <> RGot x) -> bf' = bf).
        { clear. intros f. induction f as [|f IHf]; intros j bf r bf' j' Q NR; cbn [read_loop] in Q; [discriminate|].
          destruct (s j) as [e|x] eqn:Sj; cbn [fill_in bind] in Q.
          - destruct e; [eapply IHf; eauto|]. now inversion Q.
          - destruct (blit bf 0 x); cbn [bind] in Q; inversion Q; subst. exfalso. eapply NR. reflexivity. }
        rewrite (G _ _ _ _ _ _ Eb); auto. discriminate.
      * rewrite (Gb lm eq_refl). rewrite skipn_app. pose proof (W (i + m)) as Wm. rewrite Em in Wm. destruct Wm as [Wm _].
        rewrite (skipn_all2 lm) by lia. cbn [app]. rewrite skipn_skipn. f_equal. lia.
    + rewrite <- E. f_equal. lia.
    + intros k K. apply B. lia.
Qed.

(** No full result: the loops never end. *)
Lemma read_loop_never size s : sane size s -> (forall k, ~ full size (s k)) -> forall fuel i buf, size <= length buf ->
  read_loop fuel s i buf = Fuel \/ exists r buf' j, read_loop fuel s i buf = Ok (r, buf', j) /\ ~ full size r /\ length buf' = length buf.
Proof.
  intros W N fuel. induction fuel as [|fuel IH]; intros i buf L; cbn [read_loop]; auto.
  destruct (fill_ok size s i buf W L) as (b1 & E1 & L1 & _). rewrite E1. cbn [bind]. specialize (N i) as Ni.
  destruct (s i) as [[]|l].
  - destruct (IH (S i) b1) as [Q|(r & b' & j & Q & NF & Lb)]; [lia|auto|]. right. exists r, b', j. repeat split; auto. lia.
  - right. eexists _, _, _. split; [reflexivity|]. auto.
  - right. eexists _, _, _. split; [reflexivity|]. auto.
Qed.
Lemma bytes_loop_never size s : sane size s -> (forall k, ~ full size (s k)) -> forall fuel i buf, size <= length buf ->
  bytes_loop fuel s i buf size = Fuel.
Proof.
  intros W N fuel. induction fuel as [|fuel IH]; intros i buf L; [reflexivity|]. cbn [bytes_loop].
  destruct (read_loop_never size s W N (S fuel) i buf L) as [->|(r & b & j & E & NF & Lb)]; [reflexivity|]. rewrite E. cbn [bind].
  destruct (count r =? Z.of_nat size)%Z eqn:C; [apply count_full in C; contradiction|]. apply IH. lia.
Qed.

(** ** The mask *)
Lemma mask_step k : (k < 64)%N -> N.lor (w64 (N.shiftl (2 ^ k - 1) 1)) 1 = (2 ^ (k + 1) - 1)%N.
Proof.
  intros K. rewrite N.shiftl_mul_pow2. unfold w64, W64. 
  assert (P : (0 < 2 ^ k)%N) by (apply N.neq_0_lt_0, N.pow_nonzero; lia).
  assert (Q : (2 ^ (k + 1) = 2 * 2 ^ k)%N) by (rewrite N.pow_add_r; lia).
  assert (B : (2 ^ (k + 1) <= 2 ^ 64)%N) by (apply N.pow_le_mono_r; lia).
  rewrite N.mod_small by (change (2 ^ 1)%N with 2%N; lia). rewrite lor_add by (cbn; lia). change (2 ^ 1)%N with 2%N. lia.
Qed.
Lemma mask_loop_ok n : forall fuel k max2, (max2 < 2 ^ 64)%N -> N.of_nat n = (64 - k)%N -> (k <= 64)%N -> n < fuel ->
  (k = 0 \/ 2 ^ (k - 1) <= max2)%N ->
  exists j, mask_loop fuel max2 (2 ^ k - 1) = Ok (2 ^ j - 1)%N /\ (j <= 64)%N /\ (max2 < 2 ^ j)%N /\ (j = 0 \/ 2 ^ (j - 1) <= max2)%N.
Proof.
  induction n as [|n IH]; intros fuel k max2 H E K F LB; (destruct fuel as [|fuel]; [lia|]); cbn [mask_loop].
  - assert (k = 64)%N as -> by lia. exists 64%N. destruct (N.ltb_spec (2 ^ 64 - 1) max2); [lia|]. auto.
  - destruct (N.ltb_spec (2 ^ k - 1) max2) as [L|L].
    + rewrite mask_step by lia. apply IH; auto; try lia. right. replace (k + 1 - 1)%N with k by lia. lia.
    + exists k. split; auto. split; [lia|]. split; auto.
      assert (0 < 2 ^ k)%N by (apply N.neq_0_lt_0, N.pow_nonzero; lia). lia.
Qed.
(** The number of bits of the mask for a range of [max2 + 1] values. *)
Lemma mask_bits max2 : (max2 < 2 ^ 64)%N ->
  exists j, mask_loop 65 max2 0 = Ok (2 ^ j - 1)%N /\ (j <= 64)%N /\ (max2 < 2 ^ j)%N /\ (j = 0 \/ 2 ^ (j - 1) <= max2)%N.
Proof.
  intros H. pose proof (mask_loop_ok 64 65 0 max2 H) as Q. change (2 ^ 0 - 1)%N with 0%N in Q. apply Q; auto; lia.
Qed.

Lemma land_mask x j : N.land x (2 ^ j - 1) = (x mod 2 ^ j)%N.
Proof. rewrite <- N.land_ones. f_equal. rewrite N.ones_equiv. lia. Qed.

(** ** GetInteger *)
Lemma int_loop_range opened fuel : forall s i buf mask max2 min v j, (max2 + min < 2 ^ 64)%N ->
  int_loop opened fuel s i buf mask max2 min = Ok (true, v, j) -> (min <= v <= min + max2)%N.
Proof.
  induction fuel as [|fuel IH]; intros s i buf mask max2 min v j B E; cbn [int_loop] in E; [discriminate|].
  destruct (get_bytes opened (S fuel) s i buf 8) as [[[ok b] k]| |]; cbn [bind] in E; try discriminate.
  destruct ok; cbn [negb] in E; [|discriminate].
  destruct (N.ltb_spec max2 (N.land (le_value b) mask)); [eapply IH; eauto|].
  inversion E; subst. unfold w64, W64. rewrite N.mod_small; lia.
Qed.

Lemma int_loop_ok s : sane 8 s -> forall fuel i j l buf mask max2 min, first_full 8 s i j l -> length buf = 8 -> j - i < fuel ->
  int_loop true fuel s i buf mask max2 min =
    if (max2 <? N.land (le l) mask)%N then int_loop true (pred fuel) s (S j) l mask max2 min
    else Ok (true, w64 (N.land (le l) mask + min), S j).
Proof.
  intros W fuel i j l buf mask max2 min (IJ & E & El & B) L F. destruct fuel as [|fuel]; [lia|].
  change (pred (S fuel)) with fuel. cbn [int_loop]. unfold get_bytes.
  rewrite (bytes_loop_ok 8 s W (j - i) i buf (S fuel) l); auto; try lia.
  - cbn [bind negb]. rewrite skipn_all2 by lia. rewrite app_nil_r. replace (i + (j - i)) with j by lia.
    rewrite le_value_ok; auto. specialize (W j). rewrite E in W. apply W.
  - rewrite <- E. f_equal. lia.
  - intros k K. apply B. lia.
Qed.

(** More fuel does not change an answer. *)
Lemma read_loop_mono s : forall f i buf r f', read_loop f s i buf = Ok r -> f <= f' -> read_loop f' s i buf = Ok r.
Proof.
  intros f. induction f as [|f IH]; intros i buf r f' E L; [discriminate|]. destruct f' as [|f']; [lia|]. cbn [read_loop] in *.
  destruct (fill_in (s i) buf); cbn [bind] in *; try discriminate.
  destruct (s i) as [[]|]; auto. eapply IH; eauto. lia.
Qed.
Lemma bytes_loop_mono s size : forall f i buf r f', bytes_loop f s i buf size = Ok r -> f <= f' -> bytes_loop f' s i buf size = Ok r.
Proof.
  intros f. induction f as [|f IH]; intros i buf r f' E L; [discriminate|]. destruct f' as [|f']; [lia|]. cbn [bytes_loop] in *.
  destruct (read_loop (S f) s i buf) as [[[a b] c]| |] eqn:Q; cbn [bind] in E; try discriminate.
  rewrite (read_loop_mono s (S f) i buf _ (S f') Q) by lia. cbn [bind]. destruct (count a =? Z.of_nat size)%Z; auto.
  eapply IH; eauto. lia.
Qed.
Lemma int_loop_mono s mask max2 min : forall f i buf r f', int_loop true f s i buf mask max2 min = Ok r -> f <= f' ->
  int_loop true f' s i buf mask max2 min = Ok r.
Proof.
  intros f. induction f as [|f IH]; intros i buf r f' E L; [discriminate|]. destruct f' as [|f']; [lia|]. cbn [int_loop] in *.
  unfold get_bytes in *.
  destruct (bytes_loop (S f) s i buf 8) as [[[a b] c]| |] eqn:Q; cbn [bind] in E; try discriminate.
  rewrite (bytes_loop_mono s 8 (S f) i buf _ (S f') Q) by lia. cbn [bind]. destruct (negb a); auto.
  destruct (max2 <? N.land (le_value b) mask)%N; auto. eapply IH; eauto. lia.
Qed.
Lemma get_integer_mono s min max f i buf r f' : get_integer true f s i buf min max = Ok r -> f <= f' ->
  get_integer true f' s i buf min max = Ok r.
Proof.
  unfold get_integer. destruct (if (max <? min)%N then (max, min) else (min, max)) as [a b].
  destruct (mask_loop 65 (b - a) 0); cbn [bind]; try discriminate. apply int_loop_mono.
Qed.

(** The result does not depend on what was in Result before the call. *)
Lemma int_loop_buf s : sane 8 s -> forall mask max2 min fuel i b c, length b = 8 -> length c = 8 ->
  forall v j, int_loop true fuel s i b mask max2 min = Ok (true, v, j) -> int_loop true fuel s i c mask max2 min = Ok (true, v, j).
Proof.
  intros W mask max2 min fuel i b c Lb Lc v j E. destruct fuel as [|fuel]; [discriminate|]. cbn [int_loop] in *. unfold get_bytes in *.
  destruct (bytes_loop (S fuel) s i b 8) as [[[a b'] k]| |] eqn:Q; cbn [bind] in E; try discriminate.
  (* the reads that happened contain a full one *)
  assert (FU : exists l, a = true /\ b' = l /\ bytes_loop (S fuel) s i c 8 = Ok (true, l, k)).
  { clear E. revert i b c Lb Lc Q. generalize (S fuel) as f. intros f. induction f as [|f IH]; intros i b c Lb Lc Q; [discriminate|].
    cbn [bytes_loop] in *.
    assert (RL : forall f i b c r b' k, length b = 8 -> length c = 8 -> read_loop f s i b = Ok (r, b', k) ->
              length b' = 8 /\ exists c', read_loop f s i c = Ok (r, c', k) /\ length c' = 8 /\ (full 8 r -> c' = b')).
    { clear - W. intros f. induction f as [|f IH]; intros i b c r b' k Lb Lc Q; [discriminate|]. cbn [read_loop] in *.
      destruct (fill_ok 8 s i b W) as (b1 & E1 & L1 & G1); [lia|]. destruct (fill_ok 8 s i c W) as (c1 & E2 & L2 & G2); [lia|].
      rewrite E1 in Q. rewrite E2. cbn [bind] in *. destruct (s i) as [[]|l].
      - apply (IH (S i) b1 c1 r b' k); auto; lia.
      - inversion Q; subst. split; [lia|]. exists c1. repeat split; auto; try lia. contradiction.
      - inversion Q; subst. split; [lia|]. exists c1. repeat split; auto; try lia. cbn. intros FL.
        rewrite (G1 l eq_refl), (G2 l eq_refl), !skipn_all2 by lia. reflexivity. }
    destruct (read_loop (S f) s i b) as [[[r b1] k1]| |] eqn:RQ; cbn [bind] in Q; try discriminate.
    destruct (RL (S f) i b c r b1 k1 Lb Lc RQ) as (L1 & c1 & -> & L2 & G). cbn [bind].
    destruct (count r =? Z.of_nat 8)%Z eqn:C.
    - assert (full 8 r) as FR by now apply count_full. inversion Q; subst. exists b'. rewrite (G FR).
      assert (count r <? 0 = false)%Z as N by (apply Z.eqb_eq in C; lia). rewrite N. auto.
    - exact (IH _ b1 c1 L1 L2 Q). }
  destruct FU as (l & -> & -> & ->). cbn [bind negb] in *. exact E.
Qed.
