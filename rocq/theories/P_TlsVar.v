(** Proofs about the string variables of the thread-local allocator. *)
From Verif Require Import Base S_Seq S_Tls M_Tls S_TlsVar M_TlsVar P_Dll P_Tls.
From Verif Require M_MixedVar S_MixedVar P_MixedVar.
Open Scope nat_scope.
Local Arguments Nat.pow : simpl never.
Local Arguments Nat.max : simpl never.

Definition into (c : bytes) (i : nat) (s : bytes) : bytes := firstn i c ++ s ++ skipn (i + length s) c.

Lemma into_length c i s : i + length s <= length c -> length (into c i s) = length c.
Proof. intros H. unfold into. repeat rewrite ?app_length, ?firstn_length, ?skipn_length. lia. Qed.

Lemma into_nil c i : into c i [] = c.
Proof. unfold into. cbn. rewrite Nat.add_0_r. apply firstn_skipn. Qed.

(** Writing at the end of a prefix. *)
Lemma into_at (a s r : bytes) : length s <= length r -> into (a ++ r) (length a) s = a ++ s ++ skipn (length s) r.
Proof.
  intros H. unfold into. rewrite firstn_app, firstn_all, Nat.sub_diag. cbn [firstn]. rewrite app_nil_r.
  rewrite skipn_app, skipn_all2 by lia. replace (length a + length s - length a) with (length s) by lia. reflexivity.
Qed.

Section P.
Variables (node : nat) (junk : nat -> nat -> N) (avail moves : nat -> bool) (bits : nat).
Hypothesis Avail : forall k, avail k = true.
Notation inv := (inv node bits false).

Lemma put_ok t s q p c i d : inv t s q -> live s p = Some c -> i + length d <= length c ->
  exists t', put t (Some p) i d = Ok t' /\ inv t' (View (fupd (live s) p (Some (into c i d))) (raw s)) q.
Proof.
  intros I L H. destruct d as [|d0 d'].
  - exists t. split; [reflexivity|]. eapply inv_ext; [exact I| |]; intros x; cbn [live raw]; auto.
    rewrite into_nil. unfold fupd. destruct (Nat.eqb_spec x p); congruence.
  - set (d := d0 :: d') in *. destruct (i_live _ _ _ _ _ _ I _ _ L) as (b & h & E & B).
    pose proof B as (B0 & B1 & B2 & B3 & B4 & B5 & B6 & B7).
    unfold put. unfold d at 1. rewrite E. unfold blit. rewrite (proj2 (Nat.leb_le _ _)) by lia. cbn [bind].
    eexists. split; [reflexivity|]. eapply change; eauto. instantiate (1 := h).
    destruct b as [|b0 b]; [discriminate|].
    assert (Eb : firstn (1 + i) (b0 :: b) ++ d ++ skipn (1 + i + length d) (b0 :: b) = b0 :: into b i d) by reflexivity.
    rewrite Eb. cbn [skipn] in B4. cbn [length] in B3.
    assert (Ec : into c i d = firstn (length c) (into b i d)).
    { rewrite <- B4 at 1. unfold into. rewrite !firstn_app, firstn_firstn.
      replace (Nat.min i (length c)) with i by lia. rewrite firstn_firstn.
      replace (Nat.min (length c) i) with i by lia. f_equal. rewrite firstn_length.
      replace (Nat.min i (length b)) with i by lia.
      rewrite (firstn_all2 (n := length c - i) d) by lia. f_equal.
      rewrite skipn_firstn_comm. f_equal. lia. }
    unfold block. cbn [length skipn]. rewrite !into_length by lia. split; [exact B0|].
    repeat (split; [assumption|]). split; [|split; [exact B5|split; [exact B6|discriminate]]].
    now rewrite Ec.
Qed.

Lemma put1_ok t s q p c i v : inv t s q -> live s p = Some c -> i < length c ->
  exists t', put1 t (Some p) i v = Ok t' /\ inv t' (View (fupd (live s) p (Some (upd c i v))) (raw s)) q.
Proof. intros I L H. cbn [put1]. eapply write_ok; eauto. Qed.

Lemma get_ok t s q p c n : inv t s q -> live s p = Some c -> n <= length c ->
  get t (Some p) n = Ok (firstn n c).
Proof.
  intros I L H. destruct n as [|n]; [reflexivity|]. destruct (i_live _ _ _ _ _ _ I _ _ L) as (b & h & E & B).
  pose proof B as (B0 & B1 & B2 & B3 & B4 & B5 & B6 & B7).
  unfold get. rewrite E. unfold slice. rewrite (proj2 (Nat.leb_le _ _)) by lia. f_equal.
  rewrite <- B4. rewrite firstn_firstn. f_equal. lia.
Qed.

(** Variable [v] holds text [T] with the client view [s]. *)
Definition holds (s : view) (v : tvar) (T : option bytes) : Prop :=
  match ptr v with
  | None => vpos v = 0 /\ T = None
  | Some p => exists tx rest, T = Some tx /\ vpos v = length tx /\ live s p = Some (tx ++ 0%N :: rest)
  end.

(** Other blocks are as before. *)
Definition frame (s : view) (v : tvar) (s' : view) (v' : tvar) : Prop :=
  (forall p, ptr v <> Some p -> live s p <> None -> live s' p = live s p /\ ptr v' <> Some p) /\
  (forall p, live s' p <> None -> ptr v' = Some p \/ live s p <> None /\ ptr v <> Some p) /\
  (forall p, raw s' p = raw s p).

Definition done (t : tls) (s : view) (v : tvar) (T' : option bytes) (r : res (tls * tvar)) : Prop :=
  exists t' v' q' s', r = Ok (t', v') /\ inv t' s' q' /\ holds s' v' T' /\ frame s v s' v'.

Ltac fu := unfold fupd in *; repeat match goal with
  | |- context [Nat.eqb ?a ?b] => destruct (Nat.eqb_spec a b)
  | H : context [Nat.eqb ?a ?b] |- _ => destruct (Nat.eqb_spec a b)
  end.

Lemma chars_pos s v T : holds s v T -> vpos v = length (chars T).
Proof. unfold holds. destruct (ptr v); [intros (tx & rest & -> & E & _); auto|intros [E ->]; auto]. Qed.

Lemma slice_pre (d rest : bytes) : slice (d ++ rest) 0 (length d) = Ok d.
Proof.
  unfold slice. rewrite (proj2 (Nat.leb_le _ _)) by (rewrite app_length; lia). cbn [skipn].
  rewrite firstn_app, Nat.sub_diag, firstn_all. cbn [firstn]. now rewrite app_nil_r.
Qed.

Lemma same_done t s q v T : inv t s q -> holds s v T -> done t s v T (Ok (t, v)).
Proof.
  intros I H. exists t, v, q, s. split; [reflexivity|]. split; [auto|]. split; [auto|].
  split; [auto|]. split; [|auto]. intros p Hp. destruct (ptr v) as [p0|] eqn:E; [|right; split; [auto|discriminate]].
  destruct (Nat.eq_dec p p0) as [->|]; [now left|right; split; auto; congruence].
Qed.

(** Freeing the old string, if any. *)
Lemma drop_ok t s q v T : inv t s q -> holds s v T ->
  exists t' q' s', free node junk t (ptr v) true = Ok t' /\ inv t' s' q' /\
    (forall p, ptr v <> Some p -> live s' p = live s p) /\ (forall p, ptr v = Some p -> live s' p = None) /\ raw s' = raw s.
Proof.
  intros I H. unfold holds in H. destruct (ptr v) as [p|].
  - destruct H as (tx & rest & _ & _ & L). destruct (free_ok node junk bits false _ _ _ _ _ true I L) as (t' & q' & E1 & E2 & _).
    exists t', q', (View (fupd (live s) p None) (raw s)). split; [exact E1|]. split; [exact E2|].
    cbn [live raw]. split; [|split]; auto.
    + intros x Hx. apply fupd_other. congruence.
    + intros x Hx. injection Hx as <-. apply fupd_same.
  - exists t, q, s. cbn [free]. split; [destruct (main t); reflexivity|]. split; [exact I|]. split; [reflexivity|]. split; [discriminate|reflexivity].
Qed.

Lemma SetData_ok t s q v T d rest : inv t s q -> holds s v T -> length d < 2 ^ 30 ->
  done t s v (Some d) (SetData node junk avail t v (d ++ rest) (length d)).
Proof.
  intros I H Hd. unfold SetData.
  replace (match ptr v with Some _ => free node junk t (ptr v) true | None => Ok t end) with (free node junk t (ptr v) true)
    by (destruct (ptr v); [reflexivity|unfold free; destruct (main t); reflexivity]).
  destruct (drop_ok t s q v T I H) as (t1 & q1 & s1 & E1 & I1 & F1 & F2 & F3). rewrite E1. cbn [bind].
  destruct (malloc_ok node junk avail moves bits false t1 s1 q1 (length d + 1) (Avail _) I1)
    as (t2 & q2 & p & b & c & pos & M1 & M2 & M3 & M4 & M5 & M6 & M7 & M8); [lia|clear - Hd; lia|].
  rewrite M1. cbn [bind]. rewrite slice_pre. cbn [bind].
  set (s2 := View (fupd (live s1) p (Some c)) (raw s1)) in *.
  assert (L2 : live s2 p = Some c) by (cbn [s2 live]; apply fupd_same).
  destruct (put_ok t2 s2 q2 p c 0 d M8 L2) as (t3 & P1 & P2); [lia|]. rewrite P1. cbn [bind].
  match type of P2 with P_Tls.inv _ _ _ _ ?x _ => set (s3 := x) in * end.
  assert (L3 : live s3 p = Some (into c 0 d)) by (cbn [s3 live]; apply fupd_same).
  destruct (put1_ok t3 s3 q2 p _ (length d) 0%N P2 L3) as (t4 & P3 & P4); [rewrite into_length; lia|]. rewrite P3. cbn [bind].
  eexists t4, _, q2, _. split; [reflexivity|]. split; [exact P4|].
  assert (Z : exists r, upd (into c 0 d) (length d) 0%N = d ++ 0%N :: r).
  { unfold into. cbn [firstn app Nat.add]. rewrite upd_app_r, Nat.sub_diag by lia.
    destruct (skipn (length d) c) as [|x r] eqn:Sk; [|exists r; reflexivity].
    exfalso. apply (f_equal (@length N)) in Sk. rewrite skipn_length in Sk. cbn in Sk. lia. }
  destruct Z as [r Z].
  split.
  - unfold holds. cbn [ptr vpos]. exists d, r. split; [auto|]. split; [auto|]. cbn [live]. rewrite fupd_same, Z. reflexivity.
  - destruct M3 as [U1 U2]. cbn [s3 s2 live raw].
    assert (Fp : forall x, x <> p -> live (View (fupd (live s3) p (Some (upd (into c 0 d) (length d) 0%N))) (raw s3)) x = live s1 x).
    { intros x Hx. cbn [live s3 s2]. now rewrite !fupd_other by auto. }
    split; [|split; [|intros x; cbn [raw s3 s2]; now rewrite F3]].
    + intros x Hx Lx. assert (x <> p) by (intros ->; rewrite F1 in U1 by auto; congruence).
      split; [rewrite Fp by auto; now apply F1|]. cbn [ptr]. congruence.
    + intros x Lx. cbn [ptr]. destruct (Nat.eq_dec x p) as [->|Hx]; [now left|right].
      rewrite Fp in Lx by auto.
      destruct (ptr v) as [p0|] eqn:Ev.
      * destruct (Nat.eq_dec x p0) as [->|]; [rewrite (F2 p0 eq_refl) in Lx; congruence|].
        rewrite F1 in Lx by congruence. split; [exact Lx|congruence].
      * rewrite F1 in Lx by discriminate. split; [exact Lx|discriminate].
Qed.

Lemma frame_upd s v s1 p k s2 k' : frame s v s1 (TVar (Some p) k) -> live s1 p <> None ->
  (forall x, x <> p -> live s2 x = live s1 x) -> raw s2 = raw s1 -> frame s v s2 (TVar (Some p) k').
Proof.
  intros (F1 & F2 & F3) L H Hr. split; [|split; [|intros x; now rewrite Hr]].
  - intros x Hx Lx. destruct (F1 x Hx Lx) as [A B]. cbn [ptr] in *. split; auto. rewrite H; auto.
  - intros x Lx. cbn [ptr] in *. destruct (Nat.eq_dec x p) as [->|Hx]; [now left|]. rewrite H in Lx by auto. auto.
Qed.

Lemma prefix_of (c c' tx r : bytes) n : c = tx ++ 0%N :: r -> length tx <= n -> length c' = n ->
  firstn (Nat.min (length c) n) c' = firstn (Nat.min (length c) n) c -> firstn (length tx) c' = tx.
Proof.
  intros -> H Hc E. apply (f_equal (firstn (length tx))) in E. rewrite !firstn_firstn in E.
  rewrite app_length in E. cbn [length] in E.
  replace (Nat.min (length tx) (Nat.min (length tx + S (length r)) n)) with (length tx) in E by lia.
  rewrite E. rewrite firstn_app, firstn_all, Nat.sub_diag. cbn [firstn]. apply app_nil_r.
Qed.

Lemma grow_ok t s q v T n : inv t s q -> holds s v T -> length (chars T) < n -> n <= 2 ^ 30 ->
  exists t1 q1 s1 p c, realloc node junk avail moves t (ptr v) n true = Ok (t1, Some p) /\ inv t1 s1 q1 /\
    live s1 p = Some c /\ length c = n /\ firstn (length (chars T)) c = chars T /\
    frame s v s1 (TVar (Some p) 0).
Proof.
  intros I H Hn Hn2. unfold holds in H. destruct (ptr v) as [p0|] eqn:Ev.
  - destruct H as (tx & rest & -> & Hp & L). cbn [chars] in *.
    destruct (realloc_ok node junk avail moves bits false t s q p0 _ n true (Avail _) I L)
      as (t' & q' & p' & c' & E1 & E2 & E3 & E4 & E5); [lia|exact Hn2|discriminate|].
    exists t', q', (View (fupd (fupd (live s) p0 None) p' (Some c')) (raw s)), p', c'.
    split; [exact E1|]. split; [exact E5|]. cbn [live]. rewrite fupd_same. split; [auto|]. split; [auto|].
    split; [apply (prefix_of (tx ++ 0%N :: rest) c' tx rest n); [reflexivity|clear - Hn; lia|exact E3|exact E4]|]. split; [|split; [|reflexivity]].
    + intros x Hx Lx. assert (x <> p0) by congruence. cbn [live ptr].
      assert (x <> p') by (destruct E2 as [->|[U _]]; [auto|intros ->; congruence]).
      rewrite !fupd_other by auto. split; [auto|congruence].
    + intros x. cbn [live ptr]. destruct (Nat.eq_dec x p') as [->|Hx]; [now left|].
      rewrite fupd_other by auto. destruct (Nat.eq_dec x p0) as [->|Hx0]; [rewrite fupd_same; congruence|].
      rewrite fupd_other by auto. intros Lx. right. split; [exact Lx|]. rewrite Ev. congruence.
  - destruct H as [Hp ->]. cbn [chars length] in *.
    destruct (malloc_ok node junk avail moves bits false t s q n (Avail _) I)
      as (t2 & q2 & p & b & c & pos & M1 & M2 & M3 & M4 & M5 & M6 & M7 & M8); [lia|exact Hn2|].
    unfold realloc. rewrite (proj2 (Nat.eqb_neq n 0)) by lia. rewrite M1.
    exists t2, q2, (View (fupd (live s) p (Some c)) (raw s)), p, c.
    split; [reflexivity|]. split; [exact M8|]. cbn [live]. rewrite fupd_same. split; [auto|]. split; [auto|].
    split; [reflexivity|]. destruct M3 as [U _]. split; [|split; [|reflexivity]].
    + intros x Hx Lx. assert (x <> p) by (intros ->; congruence). cbn [live ptr]. rewrite fupd_other by auto.
      split; [auto|congruence].
    + intros x. cbn [live ptr]. destruct (Nat.eq_dec x p) as [->|Hx]; [now left|].
      rewrite fupd_other by auto. intros Lx. right. split; [exact Lx|]. rewrite Ev. discriminate.
Qed.

(** Text put after a prefix, and the terminator. *)
Lemma finish t s q p (c pre d : bytes) : inv t s q -> live s p = Some c -> firstn (length pre) c = pre ->
  length pre + length d < length c ->
  exists t' s', (let* t1 := put t (Some p) (length pre) d in put1 t1 (Some p) (length pre + length d) 0%N) = Ok t' /\
    inv t' s' q /\ (forall x, x <> p -> live s' x = live s x) /\ raw s' = raw s /\
    exists r, live s' p = Some ((pre ++ d) ++ 0%N :: r).
Proof.
  intros I L Hp Hl. destruct (put_ok t s q p c (length pre) d I L) as (t1 & P1 & P2); [lia|]. rewrite P1. cbn [bind].
  set (s1 := View (fupd (live s) p (Some (into c (length pre) d))) (raw s)) in *.
  assert (L1 : live s1 p = Some (into c (length pre) d)) by (cbn [s1 live]; apply fupd_same).
  destruct (put1_ok t1 s1 q p _ (length pre + length d) 0%N P2 L1) as (t2 & P3 & P4); [rewrite into_length; lia|].
  rewrite P3. eexists t2, _. split; [reflexivity|]. split; [exact P4|]. cbn [live]. split; [|split; [reflexivity|]].
  - intros x Hx. cbn [s1 live]. now rewrite !fupd_other by auto.
  - rewrite fupd_same.
    assert (E : into c (length pre) d = (pre ++ d) ++ skipn (length pre + length d) c).
    { unfold into. rewrite Hp. now rewrite app_assoc. }
    rewrite E. rewrite upd_app_r by (rewrite app_length; lia). rewrite app_length, Nat.sub_diag.
    destruct (skipn (length pre + length d) c) as [|x r] eqn:Sk; [|exists r; reflexivity].
    exfalso. apply (f_equal (@length N)) in Sk. rewrite skipn_length in Sk. cbn in Sk. lia.
Qed.

Lemma AppendData_ok t s q v T d rest : inv t s q -> holds s v T -> length (chars T) + length d < 2 ^ 30 ->
  done t s v (Some (chars T ++ d)) (AppendData node junk avail moves t v (d ++ rest) (length d)).
Proof.
  intros I H Hd. unfold AppendData. rewrite (chars_pos _ _ _ H).
  destruct (grow_ok t s q v T (length (chars T) + length d + 1) I H) as (t1 & q1 & s1 & p & c & E1 & I1 & L1 & Lc & Pc & F);
    [lia|clear - Hd; lia|].
  rewrite E1. cbn [bind]. rewrite slice_pre. cbn [bind].
  destruct (finish t1 s1 q1 p c (chars T) d I1 L1 Pc) as (t2 & s2 & E2 & I2 & X2 & R2 & r & L2); [lia|].
  destruct (put t1 (Some p) (length (chars T)) d) as [t3| |]; cbn [bind] in *; try discriminate.
  rewrite E2. cbn [bind]. eexists t2, _, q1, s2. split; [reflexivity|]. split; [exact I2|]. split.
  - unfold holds. cbn [ptr vpos]. exists (chars T ++ d), r. split; [auto|]. split; [now rewrite app_length|exact L2].
  - eapply frame_upd; eauto. congruence.
Qed.

Lemma AppendChar_ok t s q v T c0 : inv t s q -> holds s v T -> length (chars T) + 1 < 2 ^ 30 ->
  done t s v (Some (chars T ++ [c0])) (AppendChar node junk avail moves t v c0).
Proof.
  intros I H Hd. unfold AppendChar. rewrite (chars_pos _ _ _ H).
  destruct (grow_ok t s q v T (length (chars T) + 2) I H) as (t1 & q1 & s1 & p & c & E1 & I1 & L1 & Lc & Pc & F);
    [lia|clear - Hd; lia|].
  rewrite E1. cbn [bind].
  destruct (put1_ok t1 s1 q1 p c (length (chars T)) c0 I1 L1) as (t2 & P1 & P2); [lia|]. rewrite P1. cbn [bind].
  set (s2 := View (fupd (live s1) p (Some (upd c (length (chars T)) c0))) (raw s1)) in *.
  assert (L2 : live s2 p = Some (upd c (length (chars T)) c0)) by (cbn [s2 live]; apply fupd_same).
  destruct (put1_ok t2 s2 q1 p _ (length (chars T) + 1) 0%N P2 L2) as (t3 & P3 & P4); [rewrite upd_length; lia|].
  rewrite P3. cbn [bind]. eexists t3, _, q1, _. split; [reflexivity|]. split; [exact P4|]. split.
  - unfold holds. cbn [ptr vpos live]. rewrite fupd_same.
    rewrite <- (firstn_skipn (length (chars T)) c), Pc.
    assert (Ls : length (skipn (length (chars T)) c) = 2) by (rewrite skipn_length; lia).
    destruct (skipn (length (chars T)) c) as [|x [|y l]]; try discriminate Ls.
    rewrite upd_app_r, Nat.sub_diag by lia. cbn [upd].
    rewrite upd_app_r by lia. replace (length (chars T) + 1 - length (chars T)) with 1 by lia. cbn [upd].
    exists (chars T ++ [c0]), l. split; [auto|]. split; [now rewrite app_length|]. now rewrite <- app_assoc.
  - eapply frame_upd; [eauto|congruence| |reflexivity]. intros x Hx. cbn [live s2]. now rewrite !fupd_other by auto.
Qed.

Lemma SetSize_grow_ok t s q v T k : inv t s q -> holds s v T -> length (chars T) < k -> k < 2 ^ 30 ->
  exists more, length (chars T) + length more = k /\
  done t s v (Some (chars T ++ more)) (SetSize node junk avail moves t v k).
Proof.
  intros I H Hk Hk2. unfold SetSize. rewrite (chars_pos _ _ _ H). rewrite (proj2 (Nat.ltb_lt _ _) Hk).
  destruct (grow_ok t s q v T (k + 1) I H) as (t1 & q1 & s1 & p & c & E1 & I1 & L1 & Lc & Pc & F);
    [lia|clear - Hk2; lia|].
  rewrite E1. cbn [bind].
  destruct (put1_ok t1 s1 q1 p c k 0%N I1 L1) as (t2 & P1 & P2); [lia|]. rewrite P1. cbn [bind].
  exists (firstn (k - length (chars T)) (skipn (length (chars T)) c)).
  assert (Lm : length (firstn (k - length (chars T)) (skipn (length (chars T)) c)) = k - length (chars T))
    by (rewrite firstn_length, skipn_length; lia).
  split; [lia|]. eexists t2, _, q1, _. split; [reflexivity|]. split; [exact P2|]. split.
  - unfold holds. cbn [ptr vpos live]. rewrite fupd_same. eexists _, [].
    split; [reflexivity|]. split; [rewrite app_length; lia|]. f_equal.
    rewrite upd_split by lia. rewrite (skipn_all2 (n := S k)) by lia.
    replace (firstn k c) with (chars T ++ firstn (k - length (chars T)) (skipn (length (chars T)) c)); [reflexivity|].
    rewrite <- Pc at 1. rewrite <- (firstn_skipn (length (chars T)) (firstn k c)).
    rewrite firstn_firstn, skipn_firstn_comm. f_equal. f_equal. lia.
  - eapply frame_upd; [eauto|congruence| |reflexivity]. intros x Hx. cbn [live]. now rewrite !fupd_other by auto.
Qed.

Lemma SetSize_cut_ok t s q v tx k : inv t s q -> holds s v (Some tx) -> k <= length tx ->
  done t s v (Some (firstn k tx)) (SetSize node junk avail moves t v k).
Proof.
  intros I H Hk. pose proof (chars_pos _ _ _ H) as Hv. cbn [chars] in Hv.
  unfold SetSize. rewrite (proj2 (Nat.ltb_ge _ _)) by lia. cbn [bind].
  assert (H' := H). unfold holds in H. destruct (ptr v) as [p|] eqn:Ev; [|destruct H; discriminate].
  destruct H as (tx' & rest & E & Hp & L). injection E as <-.
  destruct (put1_ok t s q p _ k 0%N I L) as (t2 & P1 & P2); [rewrite app_length; cbn [length]; lia|]. rewrite P1. cbn [bind].
  eexists t2, _, q, _. split; [reflexivity|]. split; [exact P2|]. split.
  - unfold holds. cbn [ptr vpos live]. rewrite fupd_same. eexists (firstn k tx), _. split; [reflexivity|].
    split; [rewrite firstn_length; lia|]. f_equal. rewrite upd_split by (rewrite app_length; cbn [length]; lia).
    f_equal. rewrite firstn_app. replace (k - length tx) with 0 by lia. cbn [firstn]. apply app_nil_r.
  - split; [|split; [|reflexivity]].
    + intros x Hx Lx. cbn [live ptr]. rewrite Ev in Hx. rewrite fupd_other by congruence. auto.
    + intros x. cbn [live ptr]. destruct (Nat.eq_dec x p) as [->|Hx]; [now left|]. rewrite fupd_other by auto.
      intros Lx. right. split; auto. congruence.
Qed.

Lemma PrependData_ok t s q v T d rest : inv t s q -> holds s v T -> length (chars T) + length d < 2 ^ 30 ->
  done t s v (Some (d ++ chars T)) (PrependData node junk avail t v (d ++ rest) (length d)).
Proof.
  intros I H Hd. unfold PrependData. rewrite (chars_pos _ _ _ H).
  destruct (malloc_ok node junk avail moves bits false t s q (length d + length (chars T) + 1) (Avail _) I)
    as (t1 & q1 & p & b & c & pos & M1 & M2 & M3 & M4 & M5 & M6 & M7 & I1); [lia|clear - Hd; lia|].
  rewrite M1. cbn [bind]. rewrite slice_pre. cbn [bind].
  set (s1 := View (fupd (live s) p (Some c)) (raw s)) in *.
  assert (L1 : live s1 p = Some c) by (cbn [s1 live]; apply fupd_same).
  destruct (put_ok t1 s1 q1 p c 0 d I1 L1) as (t2 & P1 & I2); [lia|]. rewrite P1. cbn [bind].
  set (s2 := View (fupd (live s1) p (Some (into c 0 d))) (raw s1)) in *.
  assert (L2 : live s2 p = Some (into c 0 d)) by (cbn [s2 live]; apply fupd_same).
  destruct M3 as [U1 U2].
  assert (X2 : forall x, x <> p -> live s2 x = live s x) by (intros x Hx; cbn [s2 s1 live]; now rewrite !fupd_other by auto).
  assert (Nv : ptr v <> Some p).
  { intros E. unfold holds in H. rewrite E in H. destruct H as (? & ? & _ & _ & L). congruence. }
  assert (G : get t2 (ptr v) (length (chars T)) = Ok (chars T)).
  { assert (H' := H). unfold holds in H. destruct (ptr v) as [p0|] eqn:Ev.
    - destruct H as (tx & r & -> & _ & L). cbn [chars]. rewrite (get_ok t2 s2 q1 p0 (tx ++ 0%N :: r)); auto.
      + f_equal. rewrite firstn_app, firstn_all, Nat.sub_diag. cbn [firstn]. apply app_nil_r.
      + rewrite X2 by congruence. exact L.
      + rewrite app_length. lia.
    - destruct H as [_ ->]. reflexivity. }
  rewrite G. cbn [bind].
  destruct (put_ok t2 s2 q1 p _ (length d) (chars T) I2 L2) as (t3 & P3 & I3); [rewrite into_length; lia|]. rewrite P3. cbn [bind].
  set (c3 := into (into c 0 d) (length d) (chars T)) in *.
  set (s3 := View (fupd (live s2) p (Some c3)) (raw s2)) in *.
  assert (X3 : forall x, x <> p -> live s3 x = live s x) by (intros x Hx; cbn [s3 live]; rewrite fupd_other by auto; auto).
  assert (H3 : holds s3 v T).
  { unfold holds in *. destruct (ptr v) as [p0|]; auto. rewrite X3 by congruence. exact H. }
  destruct (drop_ok t3 s3 q1 v T I3 H3) as (t4 & q4 & s4 & E4 & I4 & F1 & F2 & F3). rewrite E4. cbn [bind].
  assert (L4 : live s4 p = Some c3) by (rewrite F1 by auto; cbn [s3 live]; apply fupd_same).
  assert (Lc : length c3 = length d + length (chars T) + 1) by (unfold c3; rewrite !into_length; rewrite ?into_length; lia).
  destruct (put1_ok t4 s4 q4 p c3 (length (chars T) + length d) 0%N I4 L4) as (t5 & P5 & I5); [lia|]. rewrite P5. cbn [bind].
  eexists t5, _, q4, _. split; [reflexivity|]. split; [exact I5|]. split.
  - unfold holds. cbn [ptr vpos live]. rewrite fupd_same. exists (d ++ chars T), [].
    split; [auto|]. split; [rewrite app_length; lia|]. f_equal.
    rewrite upd_split by lia. rewrite (skipn_all2 (n := S _)) by lia. f_equal.
    unfold c3, into at 2. cbn [firstn app Nat.add].
    assert (Ls : length (skipn (length d) c) = length (chars T) + 1) by (rewrite skipn_length; lia).
    rewrite into_at by lia. rewrite app_assoc. rewrite firstn_app, app_length.
    replace (length (chars T) + length d - (length d + length (chars T))) with 0 by lia. cbn [firstn].
    rewrite app_nil_r. apply firstn_all2. rewrite app_length. lia.
  - assert (X5 : forall x, x <> p -> live (View (fupd (live s4) p (Some (upd c3 (length (chars T) + length d) 0%N))) (raw s4)) x = live s4 x).
    { intros x Hx. cbn [live]. now rewrite fupd_other by auto. }
    split; [|split; [|intros x; cbn [raw]; now rewrite F3]].
    + intros x Hx Lx. assert (x <> p) by (intros ->; congruence). rewrite X5, F1, X3 by auto. cbn [ptr]. split; [auto|congruence].
    + intros x Lx. cbn [ptr]. destruct (Nat.eq_dec x p) as [->|Hx]; [now left|right]. rewrite X5 in Lx by auto.
      destruct (ptr v) as [p0|] eqn:Ev.
      * destruct (Nat.eq_dec x p0) as [->|]; [rewrite (F2 p0 eq_refl) in Lx; congruence|].
        rewrite F1, X3 in Lx by congruence. split; [exact Lx|congruence].
      * rewrite F1, X3 in Lx by congruence. split; [exact Lx|discriminate].
Qed.

Lemma SetStr_ok t s q v T d rest : inv t s q -> holds s v T -> Forall (fun c => c <> 0%N) d -> length d < 2 ^ 30 ->
  done t s v (Some d) (SetStr node junk avail t v (d ++ 0%N :: rest)).
Proof. intros I H Z Hd. unfold SetStr. rewrite P_MixedVar.cstr_app by auto. cbn [bind]. eapply SetData_ok; eauto. Qed.
Lemma PrependStr_ok t s q v T d rest : inv t s q -> holds s v T -> Forall (fun c => c <> 0%N) d -> length (chars T) + length d < 2 ^ 30 ->
  done t s v (Some (d ++ chars T)) (PrependStr node junk avail t v (d ++ 0%N :: rest)).
Proof. intros I H Z Hd. unfold PrependStr. rewrite P_MixedVar.cstr_app by auto. cbn [bind]. eapply PrependData_ok; eauto. Qed.
Lemma AppendStr_ok t s q v T d rest : inv t s q -> holds s v T -> Forall (fun c => c <> 0%N) d -> length (chars T) + length d < 2 ^ 30 ->
  done t s v (Some (chars T ++ d)) (AppendStr node junk avail moves t v (d ++ 0%N :: rest)).
Proof. intros I H Z Hd. unfold AppendStr. rewrite P_MixedVar.cstr_app by auto. cbn [bind]. eapply AppendData_ok; eauto. Qed.

(** *** All variables *)
Definition rel (t : tls) (vs : nat -> tvar) (T : texts) : Prop := exists s q, inv t s q /\
  (forall x, holds s (vs x) (T x)) /\
  (forall x y p, ptr (vs x) = Some p -> ptr (vs y) = Some p -> x = y) /\
  (forall p, live s p <> None -> exists x, ptr (vs x) = Some p) /\
  (forall p, raw s p = None).

Lemma holds_live s v T p : holds s v T -> ptr v = Some p -> live s p <> None.
Proof. unfold holds. intros H E. rewrite E in H. destruct H as (? & ? & _ & _ & ->). discriminate. Qed.

Lemma rel_step t s q vs T x T1 r : inv t s q -> (forall x, holds s (vs x) (T x)) ->
  (forall x y p, ptr (vs x) = Some p -> ptr (vs y) = Some p -> x = y) ->
  (forall p, live s p <> None -> exists x, ptr (vs x) = Some p) -> (forall p, raw s p = None) ->
  done t s (vs x) T1 r -> exists t' vs', on vs x r = Ok (t', vs') /\ rel t' vs' (fupd T x T1).
Proof.
  intros I H J A R (t' & v' & q' & s' & -> & I' & H' & (F1 & F2 & F3)). unfold on. cbn [bind].
  eexists t', _. split; [reflexivity|]. exists s', q'. split; [exact I'|].
  assert (O : forall y p, y <> x -> ptr (vs y) = Some p -> live s' p = live s p /\ ptr v' <> Some p).
  { intros y p Hy E. apply F1; [|eapply holds_live; eauto]. intros E2. apply Hy. eapply J; eauto. }
  split; [|split; [|split]].
  - intros y. unfold fupd. destruct (Nat.eqb_spec y x) as [->|Hy]; [exact H'|].
    specialize (H y). unfold holds in *. destruct (ptr (vs y)) as [p|] eqn:E; auto.
    destruct (O y p Hy E) as [-> _]. exact H.
  - intros y z p. unfold fupd. destruct (Nat.eqb_spec y x) as [->|Hy], (Nat.eqb_spec z x) as [->|Hz]; auto.
    + intros E1 E2. destruct (O z p Hz E2). congruence.
    + intros E1 E2. destruct (O y p Hy E1). congruence.
    + apply J.
  - intros p Hp. destruct (F2 p Hp) as [E|[E1 E2]].
    + exists x. now rewrite fupd_same.
    + destruct (A p E1) as [y Hy]. exists y. rewrite fupd_other; auto. intros ->. auto.
  - intros p. rewrite F3. apply R.
Qed.

Lemma int_ok b ok (w : bytes) : (ok = true /\ length w <= 43 /\ (exists rest, b = w ++ 0%N :: rest) \/ ok = false /\ 43 < length w) ->
  (exists rest, ok = true /\ length w <= 43 /\ b = w ++ 0%N :: rest) \/ ok = false /\ 43 < length w.
Proof. intros [(A & B & r & C)|[A B]]; [left; exists r; auto|right; auto]. Qed.

Lemma ends_dec (t : bytes) c : ends_with t c \/ ~ ends_with t c.
Proof.
  destruct t as [|x t] using rev_ind.
  - right. intros [t0 E]. destruct t0; discriminate.
  - destruct (N.eq_dec x c) as [->|H]; [left; exists t; auto|right]. intros [t0 E]. apply app_inj_tail in E. destruct E. congruence.
Qed.

Lemma rel_ext t vs T T' : rel t vs T -> (forall x, T' x = T x) -> rel t vs T'.
Proof. intros (s & q & I & H & J & A & R) E. exists s, q. split; auto. split; auto. intros x. rewrite E. auto. Qed.

Lemma pow29 : 2 ^ 30 = 2 * 2 ^ 29.
Proof. replace 30 with (S 29) by lia. apply Nat.pow_succ_r'. Qed.

Lemma vexec_ok t vs T o : rel t vs T -> asked T o -> moderate T ->
  exists t' vs' x n, vexec node junk avail moves t vs o = Ok (t', vs') /\ becomes T o x n /\ rel t' vs' (fupd T x n).
Proof.
  intros (s & q & I & H & J & A & R) V M.
  pose proof pow29 as P29. set (P := 2 ^ 29) in *. set (P30 := 2 ^ 30) in *.
  assert (M' : forall x, length (chars (T x)) + 100 <= P) by exact M.
  assert (BND : forall x k, k <= P -> length (chars (T x)) + k < P30).
  { intros x k Hk. specialize (M' x). clear - M' Hk P29. lia. }
  assert (G : forall x T1 r, done t s (vs x) T1 r -> becomes T o x T1 ->
     forall e, e = on vs x r -> exists t' vs' x n, e = Ok (t', vs') /\ becomes T o x n /\ rel t' vs' (fupd T x n)).
  { intros x T1 r D B e ->. destruct (rel_step t s q vs T x T1 r I H J A R D) as (t' & vs' & E & R'). exists t', vs', x, T1. auto. }
  assert (B43 : forall w : bytes, length w <= 43 -> length w <= P).
  { intros w Hw. specialize (M' 0). clear - M' Hw. lia. }
  assert (PRE : forall x z r tmp, (2 <= r <= 36)%N -> (- 2^63 < z)%Z -> length tmp = 44 ->
     exists w T1, done t s (vs x) T1 (PrependInt node junk avail t (vs x) z r tmp) /\ S_MixedVar.written z r w /\
       (length w <= 43 /\ T1 = Some (w ++ chars (T x)) \/ 43 < length w /\ T1 = T x)).
  { intros x z r tmp Hr Hz Ht. destruct (P_MixedVar.IntToStringI_spec tmp z r Hr Hz Ht) as (b & ok & w & E & W & D).
    unfold PrependInt. rewrite E. cbn [bind]. apply int_ok in D. destruct D as [(rest & -> & Hw & ->)|[-> Hw]].
    - exists w, (Some (w ++ chars (T x))). split; [|auto]. eapply PrependStr_ok; eauto. eapply P_MixedVar.written_nz; eauto.
    - exists w, (T x). split; [|auto]. eapply same_done; eauto. }
  assert (APP : forall x z r tmp, (2 <= r <= 36)%N -> (- 2^63 < z)%Z -> length tmp = 44 ->
     exists w T1, done t s (vs x) T1 (AppendInt node junk avail moves t (vs x) z r tmp) /\ S_MixedVar.written z r w /\
       (length w <= 43 /\ T1 = Some (chars (T x) ++ w) \/ 43 < length w /\ T1 = T x)).
  { intros x z r tmp Hr Hz Ht. destruct (P_MixedVar.IntToStringI_spec tmp z r Hr Hz Ht) as (b & ok & w & E & W & D).
    unfold AppendInt. rewrite E. cbn [bind]. apply int_ok in D. destruct D as [(rest & -> & Hw & ->)|[-> Hw]].
    - exists w, (Some (chars (T x) ++ w)). split; [|auto]. eapply AppendStr_ok; eauto. eapply P_MixedVar.written_nz; eauto.
    - exists w, (T x). split; [|auto]. eapply same_done; eauto. }
  assert (LT : forall k, k <= P -> k < P30) by (intros k Hk; specialize (M' 0); clear - Hk P29 M'; lia).
  destruct o as [x d rest|x d rest|x d rest|x d rest|x z r tmp|x n r tmp|x d rest|x d rest|x z r tmp|x n r tmp|x c|x c|x k|x y|x];
    cbn [asked vexec] in *.
  - destruct V as [V1 V2]. eapply (G x); [|constructor|reflexivity]. eapply SetStr_ok; eauto.
  - eapply (G x); [|constructor|reflexivity]. eapply SetData_ok; eauto.
  - destruct V as [V1 V2]. eapply (G x); [|constructor|reflexivity]. eapply PrependStr_ok; eauto.
  - eapply (G x); [|constructor|reflexivity]. eapply PrependData_ok; eauto.
  - destruct V as ((V1 & V1') & V2 & V3). destruct (PRE x z r tmp V2 V1 V3) as (w & T1 & D & W & [[Hw ->]|[Hw ->]]).
    + eapply (G x _ _ D); [eapply b_pre_int; eauto|reflexivity].
    + eapply (G x _ _ D); [eapply b_pre_int_long; eauto|reflexivity].
  - destruct V as (V1 & V2 & V3). destruct (PRE x (Z.of_N n) r tmp V2) as (w & T1 & D & W & [[Hw ->]|[Hw ->]]); [clear; lia|exact V3| |].
    + eapply (G x _ _ D); [eapply b_pre_uint; eauto|]. unfold PrependUInt, PrependInt. now rewrite P_MixedVar.IntToStringU_I.
    + eapply (G x _ _ D); [eapply b_pre_uint_long; eauto|]. unfold PrependUInt, PrependInt. now rewrite P_MixedVar.IntToStringU_I.
  - destruct V as [V1 V2]. eapply (G x); [|constructor|reflexivity]. eapply AppendStr_ok; eauto.
  - eapply (G x); [|constructor|reflexivity]. eapply AppendData_ok; eauto.
  - destruct V as ((V1 & V1') & V2 & V3). destruct (APP x z r tmp V2 V1 V3) as (w & T1 & D & W & [[Hw ->]|[Hw ->]]).
    + eapply (G x _ _ D); [eapply b_app_int; eauto|reflexivity].
    + eapply (G x _ _ D); [eapply b_app_int_long; eauto|reflexivity].
  - destruct V as (V1 & V2 & V3). destruct (APP x (Z.of_N n) r tmp V2) as (w & T1 & D & W & [[Hw ->]|[Hw ->]]); [clear; lia|exact V3| |].
    + eapply (G x _ _ D); [eapply b_app_uint; eauto|]. unfold AppendUInt, AppendInt. now rewrite P_MixedVar.IntToStringU_I.
    + eapply (G x _ _ D); [eapply b_app_uint_long; eauto|]. unfold AppendUInt, AppendInt. now rewrite P_MixedVar.IntToStringU_I.
  - eapply (G x); [|constructor|reflexivity]. eapply AppendChar_ok; eauto. apply BND. specialize (M' x). clear - M'. lia.
  - assert (AC : done t s (vs x) (Some (chars (T x) ++ [c])) (AppendChar node junk avail moves t (vs x) c)).
    { eapply AppendChar_ok; eauto. apply BND. specialize (M' x). clear - M'. lia. }
    unfold AppendMissingChar. rewrite (chars_pos _ _ _ (H x)).
    destruct (length (chars (T x))) as [|k] eqn:Ek.
    + eapply (G x _ _ AC); [|reflexivity]. apply b_missing. intros [t0 E]. rewrite E, app_length in Ek. cbn in Ek. clear - Ek; lia.
    + pose proof (H x) as Hx. unfold holds in Hx. destruct (ptr (vs x)) as [p|] eqn:Ep; [|destruct Hx as [_ Hx]; rewrite Hx in Ek; discriminate].
      destruct Hx as (tx & rest & Et & Ev & L). rewrite Et in Ek. cbn [chars] in Ek.
      destruct (read_ok node bits false t s q p _ k I L) as (dd & E1 & E2); [rewrite app_length; clear - Ek; lia|].
      rewrite E1. cbn [bind]. rewrite nth_error_app1 in E2 by (clear - Ek; lia).
      assert (Etx : tx = removelast tx ++ [dd]).
      { destruct tx as [|a0 l0] using rev_ind; [discriminate|]. rewrite removelast_last. f_equal.
        rewrite app_length in Ek. cbn [length] in Ek. rewrite nth_error_app2 in E2 by (clear - Ek; lia).
        replace (k - length l0) with 0 in E2 by (clear - Ek; lia). cbn in E2. congruence. }
      destruct (N.eqb_spec dd c) as [->|Hne].
      * eapply (G x _ _ (same_done _ _ _ _ _ I (H x))); [|reflexivity]. apply b_missing_there. rewrite Et. cbn [chars]. eexists; exact Etx.
      * eapply (G x _ _ AC); [|reflexivity]. apply b_missing. rewrite Et. cbn [chars]. intros [t0 E]. rewrite Etx in E. apply app_inj_tail in E. destruct E. congruence.
  - destruct V as [V1 V2]. destruct (Nat.le_gt_cases k (length (chars (T x)))) as [Hk|Hk].
    + destruct (T x) as [tx|] eqn:Et.
      * eapply (G x); [eapply SetSize_cut_ok; [exact I|rewrite <- Et; apply H|exact Hk]| |reflexivity].
        pose proof (b_cut T x k) as B. rewrite Et in B. cbn [chars] in B. auto.
      * cbn [chars length] in Hk. exfalso. assert (k = 0) by (clear - Hk; lia). apply V2; auto.
    + destruct (SetSize_grow_ok t s q (vs x) (T x) k I (H x) Hk (LT _ V1)) as (more & E1 & D).
      eapply (G x _ _ D); [|reflexivity]. apply b_extend; auto. clear - E1 Hk. lia.
  - destruct (Nat.eqb_spec x y) as [->|Hxy].
    + exists t, vs, y, (T y). split; [reflexivity|]. split; [constructor|]. eapply rel_ext.
      * exists s, q. repeat (split; [eassumption|]). exact R.
      * intros z. unfold fupd. destruct (Nat.eqb_spec z y); congruence.
    + eapply (G x (T y)); [|constructor|reflexivity]. unfold Assign.
      pose proof (H y) as Hy. unfold holds in Hy. destruct (ptr (vs y)) as [p|] eqn:Ep.
      * destruct Hy as (tx & rest & Et & Ev & L). unfold memory. rewrite Ep.
        destruct (i_live _ _ _ _ _ _ I _ _ L) as (b & h & Eb & B). rewrite Eb. cbn [bind].
        destruct B as (_ & _ & _ & B3 & B4 & _).
        assert (Em : exists m, skipn 1 b = tx ++ m).
        { exists (skipn (length tx) (skipn 1 b)). rewrite <- (firstn_skipn (length tx) (skipn 1 b)) at 1. f_equal.
          assert (EE : firstn (length tx) (firstn (length (tx ++ 0%N :: rest)) (skipn 1 b)) = tx).
          { rewrite B4. rewrite firstn_app, firstn_all, Nat.sub_diag. cbn [firstn]. apply app_nil_r. }
          rewrite firstn_firstn in EE. rewrite app_length in EE.
          replace (Nat.min (length tx) (length tx + length (0%N :: rest))) with (length tx) in EE by (clear; lia). exact EE. }
        destruct Em as [m Em]. rewrite Em, Ev, Et. eapply SetData_ok; eauto. apply LT.
        specialize (M' y). rewrite Et in M'. cbn [chars] in M'. clear - M'. lia.
      * destruct Hy as [_ Hy]. rewrite Hy. destruct (drop_ok t s q (vs x) (T x) I (H x)) as (t1 & q1 & s1 & E1 & I1 & F1 & F2 & F3).
        rewrite E1. cbn [bind]. exists t1, (TVar None 0), q1, s1. split; [reflexivity|]. split; [exact I1|]. split; [cbn; auto|].
        split; [|split; [|intros p; now rewrite F3]].
        -- intros p Hp Lp. split; [auto|discriminate].
        -- intros p Lp. right. destruct (ptr (vs x)) as [p0|] eqn:Ex.
           ++ destruct (Nat.eq_dec p p0) as [->|]; [rewrite (F2 p0 eq_refl) in Lp; congruence|].
              rewrite F1 in Lp by congruence. split; [exact Lp|congruence].
           ++ rewrite F1 in Lp by congruence. split; [exact Lp|discriminate].
  - assert (D : done t s (vs x) None (let* t1 := Destruct node junk t (vs x) in Ok (t1, Construct))).
    { unfold Destruct.
      replace (match ptr (vs x) with Some _ => free node junk t (ptr (vs x)) true | None => Ok t end) with (free node junk t (ptr (vs x)) true)
        by (destruct (ptr (vs x)); [reflexivity|unfold free; destruct (main t); reflexivity]).
      destruct (drop_ok t s q (vs x) (T x) I (H x)) as (t1 & q1 & s1 & E1 & I1 & F1 & F2 & F3).
      rewrite E1. cbn [bind]. exists t1, (TVar None 0), q1, s1. split; [reflexivity|]. split; [exact I1|]. split; [cbn; auto|].
      split; [|split; [|intros p; now rewrite F3]].
      -- intros p Hp Lp. split; [auto|discriminate].
      -- intros p Lp. right. destruct (ptr (vs x)) as [p0|] eqn:Ex.
         ++ destruct (Nat.eq_dec p p0) as [->|]; [rewrite (F2 p0 eq_refl) in Lp; congruence|].
            rewrite F1 in Lp by congruence. split; [exact Lp|congruence].
         ++ rewrite F1 in Lp by congruence. split; [exact Lp|discriminate]. }
    eapply (G x _ _ D); [constructor|]. unfold on. destruct (Destruct node junk t (vs x)); reflexivity.
Qed.

Lemma rel_start : rel (ThreadInit no_thread bits) (fun _ => Construct) (fun _ => None).
Proof.
  exists nothing, (repeat [] bits). split; [apply init_ok|]. split; [intros x; cbn; auto|]. split; [discriminate|].
  split; [cbn; congruence|reflexivity].
Qed.

(** What a reader of the variables sees. *)
Lemma rel_reads t vs T x : rel t vs T ->
  match T x with
  | None => ptr (vs x) = None /\ vpos (vs x) = 0
  | Some tx => vpos (vs x) = length tx /\ exists p b r, ptr (vs x) = Some p /\ heap t p = Some b /\ skipn 1 b = tx ++ 0%N :: r
  end.
Proof.
  intros (s & q & I & H & _). specialize (H x). unfold holds in H. destruct (ptr (vs x)) as [p|] eqn:E.
  - destruct H as (tx & rest & -> & E2 & L). split; [exact E2|].
    destruct (i_live _ _ _ _ _ _ I _ _ L) as (b & h & Eb & B). destruct B as (_ & _ & _ & B3 & B4 & _).
    exists p, b, (rest ++ skipn (length (tx ++ 0%N :: rest)) (skipn 1 b)). split; [auto|]. split; [auto|].
    rewrite <- (firstn_skipn (length (tx ++ 0%N :: rest)) (skipn 1 b)) at 1. rewrite B4. rewrite <- app_assoc. reflexivity.
  - destruct H as [E2 ->]. auto.
Qed.

Lemma rel_end t vs T : rel t vs T -> exists t', ThreadEnd t = Ok (t', true) /\
  forall p, heap t' p <> None <-> exists x, ptr (vs x) = Some p.
Proof.
  intros (s & q & I & H & J & A & R). destruct (end_ok node junk avail moves bits false t s q I) as (t' & E1 & _ & E2).
  exists t'. split; [exact E1|]. intros p. rewrite E2. rewrite R. split.
  - intros [L|L]; [auto|congruence].
  - intros [x Hx]. left. eapply holds_live; eauto.
Qed.
End P.
