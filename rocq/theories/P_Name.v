(** Proofs about names of shared objects. *)
From Verif Require Import Base S_Numeral S_Name M_Name.
Open Scope N_scope.

(** ** Decimal numbers *)
Lemma utoa_spec f : forall n acc, n < 10 ^ N.of_nat f -> (0 < f)%nat ->
  exists ds, utoa f n acc = map (fun x => 48 + x) ds ++ acc /\ is_numeral 10 n ds.
Proof.
  induction f as [|f IH]; intros n acc H P; [lia|]. cbn [utoa]. destruct (N.eqb_spec (n / 10) 0) as [Z|Z].
  - exists [n mod 10]. split; [reflexivity|]. assert (n < 10) by (exact (proj1 (N.div_small_iff n 10 ltac:(discriminate)) Z)). rewrite N.mod_small by lia.
    split; [discriminate|]. split; [repeat constructor; lia|]. split; [cbn; congruence|]. cbn. lia.
  - assert (P2 : (0 < f)%nat). { destruct f; [|lia]. cbn in H. destruct Z. apply N.div_small. lia. }
    assert (H2 : n / 10 < 10 ^ N.of_nat f). { apply N.div_lt_upper_bound; [lia|]. rewrite Nat2N.inj_succ, N.pow_succ_r' in H. exact H. }
    destruct (IH (n / 10) (48 + n mod 10 :: acc) H2 P2) as (ds & E & N1 & N2 & N3 & N4). exists (ds ++ [n mod 10]). split.
    + rewrite E, map_app, <- app_assoc. reflexivity.
    + split; [destruct ds; discriminate|]. split; [apply Forall_app; split; [exact N2|repeat constructor; apply N.mod_lt; lia]|]. split.
      * destruct ds as [|d ds]; [congruence|]. cbn [hd app]. intro Z2. specialize (N3 Z2). injection N3 as -> ->. cbn in N4. congruence.
      * rewrite value_snoc, N4. rewrite (N.div_mod n 10) at 3 by lia. lia.
Qed.

Lemma utoa_decimal n : n < W32 -> decimal n (utoa 10 n []).
Proof.
  intro H. destruct (utoa_spec 10 n [] ltac:(eapply N.lt_trans; [exact H|reflexivity]) ltac:(lia)) as (ds & E & D). exists ds. split; [exact D|]. rewrite E, app_nil_r. reflexivity.
Qed.

Lemma decimal_digits n d : decimal n d -> Forall (fun c => 48 <= c < 58) d.
Proof.
  intros (ds & (_ & F & _) & ->). rewrite Forall_map. eapply Forall_impl; [|exact F]. cbv beta. intros; lia.
Qed.

Lemma decimal_unique n m d : decimal n d -> decimal m d -> n = m.
Proof.
  intros (ds & (_ & _ & _ & V) & E) (ds' & (_ & _ & _ & V') & E'). rewrite <- V, <- V'. f_equal. rewrite E in E'. clear - E'.
  revert ds' E'. induction ds as [|x l IH]; intros [|y l'] E; cbn [map] in E; try discriminate; [reflexivity|]. pose proof (f_equal (hd 0) E) as E1. pose proof (f_equal (@tl N) E) as E2. cbn [hd tl] in E1, E2. cbv beta in E1. f_equal; [lia|exact (IH _ E2)].
Qed.

(** ** The pseudo-hash *)
Section Name.
Variable m : nat.
Hypothesis Hm : (1 <= m)%nat.
Local Notation cap := (S (S m)).

Lemma pushes_app st a b : pushes cap st (a ++ b) = let* st := pushes cap st a in pushes cap st b.
Proof. revert st. induction a as [|c a IH]; intro st; [reflexivity|]. cbn [app pushes]. destruct (push cap st c); cbn [bind]; [apply IH|reflexivity|reflexivity]. Qed.

(** The array is its first byte, [m] more bytes and a zero. *)
Lemma push_mid h mid j z c : length mid = m -> (j < m)%nat ->
  exists v, push cap (h :: mid ++ [0], S j, z) c = Ok (if (S j =? m)%nat then (h :: upd mid j v ++ [0], 1%nat, S z) else (h :: upd mid j v ++ [0], S (S j), z)) /\ v = (nth j mid 0 * 37 + c) mod 256.
Proof.
  intros L J. unfold push. assert (R : rd (h :: mid ++ [0]) (S j) = Ok (nth j mid 0)).
  { rewrite (rd_in _ _ 0) by (cbn [length]; rewrite app_length; cbn; lia). cbn [nth]. rewrite app_nth1 by lia. reflexivity. }
  rewrite R. cbn [bind]. eexists. split; [|reflexivity]. rewrite wr_in by (cbn [length]; rewrite app_length; cbn; lia). cbn [bind upd]. rewrite upd_app_l by lia.
  replace (cap - 1)%nat with (S m) by lia. cbn [Nat.eqb]. destruct (Nat.eqb_spec (S j) m); reflexivity.
Qed.

(** What is known after some bytes. *)
Definition good (h : N) (t : bytes) (st : bytes * nat * nat) : Prop :=
  exists mid j, fst (fst st) = h :: mid ++ [0] /\ snd (fst st) = S j /\ length mid = m /\ (j < m)%nat /\
    match snd st with
    | O => mid = t ++ repeat 0 (m - length t) /\ j = length t
    | S O => skipn j mid = skipn j (firstn m t) /\ length t = (m + j)%nat
    | _ => (m + m <= length t)%nat
    end.

Lemma upd_here {A} (a : list A) x b v : upd (a ++ x :: b) (length a) v = a ++ v :: b.
Proof. rewrite upd_app_r by lia. rewrite Nat.sub_diag. reflexivity. Qed.

Lemma skipn_upd {A} (l : list A) j v : skipn (S j) (upd l j v) = skipn (S j) l.
Proof. revert j. induction l as [|x l IH]; intros [|j]; try reflexivity. cbn [upd skipn] in *. apply IH. Qed.

Lemma skipn_more {A} (l l' : list A) j : skipn j l = skipn j l' -> skipn (S j) l = skipn (S j) l'.
Proof.
  intro E. assert (G : forall k : list A, skipn (S j) k = skipn 1 (skipn j k)). { intro k. rewrite skipn_skipn. f_equal. }
  rewrite !G, E. reflexivity.
Qed.

Lemma good_push h t st c : good h t st -> 0 < c < 256 -> exists st', push cap st c = Ok st' /\ good h (t ++ [c]) st'.
Proof.
  intros (mid & j & Eb & Ex & L & J & K) C. destruct st as [[b x2] z]. cbn [fst snd] in *. subst b x2.
  destruct (push_mid h mid j z c L J) as (v & E & Ev). eexists. split; [exact E|]. clear E.
  destruct z as [|[|z]].
  - destruct K as [K ->]. assert (Lt : (length t < m)%nat) by exact J.
    assert (v = c) as ->. { rewrite Ev, K, app_nth2 by lia. rewrite Nat.sub_diag. rewrite nth_repeat. cbn. apply N.mod_small. lia. }
    assert (U : upd mid (length t) c = t ++ c :: repeat 0 (m - S (length t))). { rewrite K. replace (m - length t)%nat with (S (m - S (length t))) by lia. cbn [repeat]. apply upd_here. }
    rewrite U. destruct (Nat.eqb_spec (S (length t)) m) as [Q|Q].
    + exists (t ++ [c]), O. cbn [fst snd]. replace (m - S (length t))%nat with O by lia. cbn [repeat]. rewrite app_length. cbn [length].
      split; [reflexivity|]. split; [reflexivity|]. split; [lia|]. split; [lia|]. cbn [skipn]. split; [|lia]. rewrite firstn_all2 by (rewrite app_length; cbn; lia). reflexivity.
    + exists ((t ++ [c]) ++ repeat 0 (m - S (length t))), (S (length t)). cbn [fst snd]. split; [rewrite <- !app_assoc; reflexivity|]. split; [reflexivity|].
      rewrite !app_length. cbn [length]. rewrite repeat_length. split; [lia|]. split; [lia|]. split; [|lia]. f_equal. f_equal. lia.
  - destruct K as [K Lt]. destruct (Nat.eqb_spec (S j) m) as [Q|Q].
    + exists (upd mid j v), O. cbn [fst snd]. rewrite upd_length, app_length. cbn [length]. repeat split; try lia.
    + exists (upd mid j v), (S j). cbn [fst snd]. rewrite upd_length, app_length. cbn [length]. repeat split; try lia. rewrite skipn_upd. apply skipn_more.
      rewrite firstn_app. replace (m - length t)%nat with O by lia. rewrite firstn_O, app_nil_r. exact K.
  - destruct (Nat.eqb_spec (S j) m) as [Q|Q].
    + exists (upd mid j v), O. cbn [fst snd]. rewrite upd_length, app_length. cbn [length]. repeat split; try lia.
    + exists (upd mid j v), (S j). cbn [fst snd]. rewrite upd_length, app_length. cbn [length]. repeat split; try lia.
Qed.

Lemma good_pushes h u : text u -> forall t st, good h t st -> exists st', pushes cap st u = Ok st' /\ good h (t ++ u) st'.
Proof.
  induction 1 as [|c u Hc Hu IH]; intros t st G; [exists st; rewrite app_nil_r; split; [reflexivity|exact G]|].
  destruct (good_push h t st c G Hc) as (st1 & E1 & G1). destruct (IH _ _ G1) as (st2 & E2 & G2). exists st2. cbn [pushes]. rewrite E1. cbn [bind]. rewrite <- app_assoc in G2. split; [exact E2|exact G2].
Qed.

Lemma good_start h : 0 < h < 256 -> exists st, push cap (repeat 0 cap, O, O) h = Ok st /\ good h [] st.
Proof.
  intro H. unfold push. cbn [repeat]. change (rd (0 :: 0 :: repeat 0 m) 0) with (Ok 0). cbn [bind]. change (wr (0 :: 0 :: repeat 0 m) 0 ?v) with (Ok (v :: 0 :: repeat 0 m)).
  unfold wr. cbn [length Nat.ltb Nat.leb bind upd]. rewrite N.mul_0_l, N.add_0_l, N.mod_small by lia. replace (1 =? cap - 1)%nat with false by (symmetry; apply Nat.eqb_neq; lia).
  eexists. split; [reflexivity|]. exists (repeat 0 m), O. cbn [fst snd length]. change (0 :: repeat 0 m) with (repeat 0 (S m)). replace (repeat 0 (S m)) with (repeat 0 m ++ [0]) by (rewrite <- repeat_cons; reflexivity).
  rewrite repeat_length. repeat split; try lia. rewrite Nat.sub_0_r. reflexivity.
Qed.

(** ** Normalising and cleaning *)
Lemma normalise_mid n : forall a b, (n <= length b)%nat -> normalise (a ++ b) (length a) n = Ok (a ++ map norm1 (firstn n b) ++ skipn n b).
Proof.
  induction n as [|n IH]; intros a b L; [reflexivity|]. destruct b as [|x b]; [cbn in L; lia|]. cbn [normalise length] in *.
  rewrite (rd_in _ _ 0) by (rewrite app_length; cbn; lia). rewrite app_nth2, Nat.sub_diag by lia. cbn [nth bind]. rewrite wr_in by (rewrite app_length; cbn; lia). cbn [bind]. rewrite upd_here.
  specialize (IH (a ++ [norm1 x]) b ltac:(lia)). rewrite app_length in IH. cbn [length] in IH. rewrite Nat.add_1_r, <- !app_assoc in IH. exact IH.
Qed.

Lemma clean_text t : Forall (fun c => c <> 0) t -> forall a b n, (length t < n)%nat -> clean (a ++ t ++ 0 :: b) (length a) n = Ok (a ++ map plain t ++ 0 :: b).
Proof.
  induction 1 as [|c t Hc Ht IH]; intros a b n L; (destruct n as [|n]; [cbn in L; lia|]); cbn [app length clean map] in *.
  - rewrite (rd_in _ _ 0) by (rewrite app_length; cbn; lia). rewrite app_nth2, Nat.sub_diag by lia. reflexivity.
  - rewrite (rd_in _ _ 0) by (rewrite app_length; cbn; lia). rewrite app_nth2, Nat.sub_diag by lia. cbn [nth bind]. destruct (N.eqb_spec c 0) as [Z|_]; [contradiction|].
    assert (E : (if (c =? 92) || (c =? 47) then wr (a ++ c :: t ++ 0 :: b) (length a) 95 else Ok (a ++ c :: t ++ 0 :: b)) = Ok (a ++ plain c :: t ++ 0 :: b)).
    { unfold plain. destruct ((c =? 92) || (c =? 47)); [|reflexivity]. rewrite wr_in by (rewrite app_length; cbn; lia). rewrite upd_here. reflexivity. }
    match goal with |- bind ?x _ = _ => replace x with (Ok (a ++ plain c :: t ++ 0 :: b)) by (symmetry; exact E) end. cbn [bind]. specialize (IH (a ++ [plain c]) b n ltac:(lia)). rewrite app_length in IH. cbn [length] in IH. rewrite Nat.add_1_r, <- !app_assoc in IH. exact IH.
Qed.

Lemma norm1_pos c : norm1 c <> 0.
Proof.
  unfold norm1. pose proof (N.mod_lt c 64 ltac:(lia)). destruct (N.ltb_spec (c mod 64) 10); [alia|]. destruct (N.ltb_spec (c mod 64) 36); [alia|]. destruct (N.ltb_spec (c mod 64) 62); [alia|]. destruct (N.eqb_spec (c mod 64) 62); discriminate.
Qed.

Lemma plain_pos c : c <> 0 -> plain c <> 0.
Proof. unfold plain. destruct ((c =? 92) || (c =? 47)); [discriminate|auto]. Qed.

Lemma text_skipn t j : text t -> text (skipn j t).
Proof. intro H. unfold text in *. rewrite <- (firstn_skipn j t) in H. apply Forall_app in H. exact (proj2 H). Qed.
Lemma text_firstn t j : text t -> text (firstn j t).
Proof. intro H. unfold text in *. rewrite <- (firstn_skipn j t) in H. apply Forall_app in H. exact (proj1 H). Qed.
Lemma text_nz t : text t -> Forall (fun c => c <> 0) t.
Proof. intro H. eapply Forall_impl; [|exact H]. cbv beta. intros; lia. Qed.

Lemma nums_text a s : text (nums a s).
Proof.
  assert (D : forall n, n < W32 -> text (utoa 10 n [])). { intros n H. eapply Forall_impl; [|exact (decimal_digits _ _ (utoa_decimal n H))]. cbv beta. intros; lia. }
  unfold nums, text. constructor; [lia|]. apply Forall_app. split; [apply D, N.mod_lt; discriminate|]. constructor; [lia|]. apply Forall_app. split; [apply D, N.mod_lt; discriminate|repeat constructor; lia].
Qed.

(** The whole name, in all cases. *)
Lemma shm_name_ok h r a s name : 0 < h < 256 -> text r -> text name ->
  exists mid pad, shm_name cap (h :: r) a s name = Ok (h :: map plain mid ++ 0 :: pad) /\ Forall (fun c => c <> 0) mid /\ (length mid + length pad)%nat = m /\
    ((length (r ++ nums a s ++ name) <= m)%nat -> mid = r ++ nums a s ++ name).
Proof.
  intros Hh Hr Hn. set (t := r ++ nums a s ++ name). assert (Ht : text t). { unfold t, text. apply Forall_app. split; [exact Hr|]. apply Forall_app. split; [apply nums_text|exact Hn]. }
  unfold shm_name. cbn [pushes]. destruct (good_start h Hh) as (st0 & E0 & G0). rewrite E0. cbn [bind].
  destruct (good_pushes h t Ht [] st0 G0) as (st & E & (mid & j & Eb & Ex & L & J & K)). unfold t in E. rewrite !pushes_app in E.
  destruct (pushes cap st0 r) as [st1| |]; [|discriminate|discriminate]. cbn [bind] in *. rewrite !pushes_app in E. destruct (pushes cap st1 (nums a s)) as [st2| |]; [|discriminate|discriminate]. cbn [bind] in *. rewrite E. cbn [bind]. clear E.
  destruct st as [[b x2] z]. cbn [fst snd app] in *. subst b x2. replace (cap - 1)%nat with (S m) by lia. destruct z as [|[|z]]; cbn [Nat.eqb Nat.ltb Nat.leb bind].
  - destruct K as [K ->]. exists t, (repeat 0 (m - length t)). assert (Lt : (length t < m)%nat) by exact J.
    split; [|split; [exact (text_nz t Ht)|split; [rewrite repeat_length; lia|reflexivity]]].
    replace (h :: mid ++ [0]) with ([h] ++ t ++ 0 :: repeat 0 (m - length t)).
    + change 1%nat with (length [h]) at 1. rewrite (clean_text t (text_nz t Ht)) by lia. reflexivity.
    + rewrite K. cbn [app]. f_equal. rewrite <- app_assoc. f_equal. change (0 :: repeat 0 (m - length t)) with (repeat 0 (S (m - length t))). rewrite <- repeat_cons. reflexivity.
  - destruct K as [K Lt]. replace (S j - 1)%nat with j by lia. change (h :: mid ++ [0]) with ([h] ++ (mid ++ [0])). change 1%nat with (length [h]) at 1.
    rewrite normalise_mid by (rewrite app_length; cbn; lia). cbn [bind]. rewrite firstn_app, skipn_app. replace (j - length mid)%nat with O by lia. cbn [firstn skipn]. rewrite app_nil_r, app_assoc.
    assert (NZ : Forall (fun c => c <> 0) (map norm1 (firstn j mid) ++ skipn j mid)).
    { apply Forall_app. split; [rewrite Forall_map; apply Forall_forall; intros; apply norm1_pos|]. rewrite K. apply text_nz, text_skipn, text_firstn, Ht. }
    exists (map norm1 (firstn j mid) ++ skipn j mid), []. split; [|split; [exact NZ|split]].
    + replace (([h] ++ map norm1 (firstn j mid)) ++ skipn j mid ++ [0]) with ([h] ++ (map norm1 (firstn j mid) ++ skipn j mid) ++ [0]) by (rewrite <- !app_assoc; reflexivity).
      etransitivity; [exact (clean_text _ NZ [h] [] (S m) ltac:(rewrite app_length, map_length, firstn_length, skipn_length; lia))|reflexivity].
    + rewrite app_length, map_length, firstn_length, skipn_length. cbn. lia.
    + intro Q. change (length t <= m)%nat in Q. assert (j = O) as -> by lia. cbn [firstn skipn map app] in *. rewrite K. apply firstn_all2. lia.
  - cbn [Nat.sub]. rewrite Nat.sub_0_r. change (h :: mid ++ [0]) with ([h] ++ (mid ++ [0])). change 1%nat with (length [h]) at 1.
    rewrite normalise_mid by (rewrite app_length; cbn; lia). cbn [bind]. rewrite firstn_app, skipn_app. replace (m - length mid)%nat with O by lia. rewrite (firstn_all2 mid), (skipn_all2 mid) by lia. cbn [firstn skipn app]. rewrite app_nil_r.
    assert (NZ : Forall (fun c => c <> 0) (map norm1 mid)) by (rewrite Forall_map; apply Forall_forall; intros; apply norm1_pos).
    exists (map norm1 mid), []. split; [|split; [exact NZ|split]].
    + etransitivity; [exact (clean_text _ NZ [h] [] (S m) ltac:(rewrite map_length; lia))|reflexivity].
    + rewrite map_length. cbn. lia.
    + intro Q. exfalso. change (length t <= m)%nat in Q. lia.
Qed.
End Name.

(** ** Names that do not fit *)
Lemma combine_snoc {A B} (a : list A) : forall (b : list B) x y, length a = length b -> combine (a ++ [x]) (b ++ [y]) = combine a b ++ [(x, y)].
Proof. induction a as [|p a IH]; intros [|q b] x y L; try discriminate; [reflexivity|]. cbn [app combine]. rewrite IH by (cbn in L; lia). reflexivity. Qed.

Lemma mixed_snoc m i t c : mixed (picked m i (t ++ [c])) = if (length t mod m =? i)%nat then (mixed (picked m i t) * 37 + c) mod 256 else mixed (picked m i t).
Proof.
  unfold picked. rewrite app_length. cbn [length]. rewrite Nat.add_1_r, seq_S, combine_snoc by (rewrite seq_length; reflexivity).
  rewrite filter_app, map_app. cbn [filter fst plus]. destruct (length t mod m =? i)%nat; cbn [map snd]; [|rewrite app_nil_r; reflexivity].
  unfold mixed. rewrite fold_left_app. reflexivity.
Qed.

Lemma mixed_none m i t : (i < m)%nat -> (length t <= i)%nat -> mixed (picked m i t) = 0.
Proof.
  intro I. induction t as [|c t IH] using rev_ind; [reflexivity|]. rewrite app_length. cbn [length]. intro L. rewrite mixed_snoc, IH by lia.
  rewrite Nat.mod_small by lia. destruct (Nat.eqb_spec (length t) i); [lia|reflexivity].
Qed.

Lemma mixed_one m i t : text t -> (i < m)%nat -> (i < length t)%nat -> (length t <= i + m)%nat -> mixed (picked m i t) = nth i t 0.
Proof.
  intros T I. induction t as [|c t IH] using rev_ind; [cbn; lia|]. apply Forall_app in T. destruct T as [T Tc]. apply Forall_inv in Tc. rewrite app_length. cbn [length]. intros L1 L2.
  rewrite mixed_snoc. destruct (Nat.eqb_spec (length t mod m) i) as [E|E].
  - assert (length t = i). { destruct (Nat.lt_ge_cases (length t) m) as [L|L]; [rewrite Nat.mod_small in E by lia; exact E|]. exfalso.
      replace (length t) with (length t - m + 1 * m)%nat in E by lia. rewrite Nat.mod_add in E by lia. rewrite Nat.mod_small in E by lia. lia. }
    rewrite mixed_none by lia. rewrite app_nth2, H, Nat.sub_diag by lia. cbn. apply N.mod_small. lia.
  - assert (i <> length t) by (intros ->; apply E, Nat.mod_small; lia). rewrite app_nth1 by lia. apply IH; [exact T|lia|lia].
Qed.

Lemma alphabet_norm c : norm1 c = nth (N.to_nat (c mod 64)) alphabet 0.
Proof.
  unfold norm1. pose proof (N.mod_lt c 64 ltac:(discriminate)) as H. generalize dependent (c mod 64). clear c. intros t H.
  assert (A : forallb (fun k => let t := N.of_nat k in N.eqb (if t <? 10 then t + 48 else if t <? 36 then t - 10 + 65 else if t <? 62 then t - 36 + 97 else if t =? 62 then 95 else 45) (nth (N.to_nat t) alphabet 0)) (seq 0 64) = true) by (vm_compute; reflexivity).
  rewrite forallb_forall in A. specialize (A (N.to_nat t) ltac:(apply in_seq; lia)). cbv zeta in A. rewrite N2Nat.id in A. apply N.eqb_eq in A. exact A.
Qed.

Lemma alphabet_plain k : plain (nth k alphabet 0) = nth k alphabet 0.
Proof.
  destruct (Nat.lt_ge_cases k 64) as [L|L]; [|rewrite nth_overflow by exact L; reflexivity].
  assert (A : forallb (fun k => N.eqb (plain (nth k alphabet 0)) (nth k alphabet 0)) (seq 0 64) = true) by (vm_compute; reflexivity).
  rewrite forallb_forall in A. apply N.eqb_eq. exact (A k ltac:(apply in_seq; lia)).
Qed.

Lemma firstn_seq n : forall a m, (n <= m)%nat -> firstn n (seq a m) = seq a n /\ skipn n (seq a m) = seq (a + n) (m - n).
Proof.
  induction n as [|n IH]; intros a m L; [rewrite Nat.add_0_r, Nat.sub_0_r; split; reflexivity|]. destruct m as [|m]; [lia|]. cbn [seq firstn skipn]. destruct (IH (S a) m ltac:(lia)) as [-> ->].
  split; [reflexivity|]. f_equal; lia.
Qed.

Lemma nth_upd_same {A} (l : list A) i v d : (i < length l)%nat -> nth i (upd l i v) d = v.
Proof. intro H. apply nth_error_nth. apply upd_nth_same. exact H. Qed.
Lemma nth_upd_other {A} (l : list A) i j v d : i <> j -> nth j (upd l i v) d = nth j l d.
Proof. intro H. pose proof (upd_nth_other l i j v H) as E. revert l j H E. induction i as [|i IH]; intros [|x l] [|j] H E; try reflexivity; try lia. cbn [upd nth]. apply IH; [lia|exact E]. Qed.

Section Long.
Variable m : nat.
Hypothesis Hm : (1 <= m)%nat.
Local Notation cap := (S (S m)).

Definition laid (h : N) (t : bytes) (st : bytes * nat * nat) : Prop :=
  st = (h :: map (fun i => mixed (picked m i t)) (seq 0 m) ++ [0], S (length t mod m), (length t / m)%nat).

Lemma laid_push h t st c : laid h t st -> exists st', push cap st c = Ok st' /\ laid h (t ++ [c]) st'.
Proof.
  intros ->. assert (J : (length t mod m < m)%nat) by (apply Nat.mod_upper_bound; lia).
  destruct (push_mid m Hm h (map (fun i => mixed (picked m i t)) (seq 0 m)) (length t mod m) (length t / m) c) as (v & E & Ev); [rewrite map_length, seq_length; reflexivity|exact J|].
  eexists. split; [exact E|]. clear E. unfold laid. rewrite app_length. cbn [length].
  assert (U : upd (map (fun i => mixed (picked m i t)) (seq 0 m)) (length t mod m) v = map (fun i => mixed (picked m i (t ++ [c]))) (seq 0 m)).
  { apply nth_ext with (d := 0) (d' := 0); [rewrite upd_length, !map_length; reflexivity|]. intros i Hi. rewrite upd_length, map_length, seq_length in Hi.
    assert (G : forall f, nth i (map f (seq 0 m)) 0 = f i) by (intro f; rewrite (nth_indep _ 0 (f O)) by (rewrite map_length, seq_length; lia); rewrite map_nth, seq_nth by lia; reflexivity).
    assert (G2 : nth (length t mod m) (map (fun i => mixed (picked m i t)) (seq 0 m)) 0 = mixed (picked m (length t mod m) t)).
    { set (f := fun i => mixed (picked m i t)). rewrite (nth_indep _ 0 (f O)) by (rewrite map_length, seq_length; lia). rewrite map_nth, seq_nth by lia. reflexivity. }
    rewrite G, mixed_snoc. rewrite Ev, G2. destruct (Nat.eqb_spec (length t mod m) i) as [->|N].
    - rewrite nth_upd_same by (rewrite map_length, seq_length; lia). reflexivity.
    - rewrite nth_upd_other by exact N. apply G. }
  rewrite U. pose proof (Nat.div_mod (length t) m ltac:(lia)) as D. set (q := (length t / m)%nat) in *. set (r := (length t mod m)%nat) in *.
  destruct (Nat.eqb_spec (S r) m) as [Q|Q].
  - assert (A : ((length t + 1) / m)%nat = S q) by (symmetry; apply (Nat.div_unique _ _ _ 0); lia).
    assert (B : ((length t + 1) mod m)%nat = 0%nat) by (symmetry; apply (Nat.mod_unique _ _ (S q)); lia). rewrite A, B. reflexivity.
  - assert (A : ((length t + 1) / m)%nat = q) by (symmetry; apply (Nat.div_unique _ _ _ (S r)); lia).
    assert (B : ((length t + 1) mod m)%nat = S r) by (symmetry; apply (Nat.mod_unique _ _ q); lia). rewrite A, B. reflexivity.
Qed.

Lemma laid_pushes h u : forall t st, laid h t st -> exists st', pushes cap st u = Ok st' /\ laid h (t ++ u) st'.
Proof.
  induction u as [|c u IH]; intros t st G; [exists st; rewrite app_nil_r; split; [reflexivity|exact G]|].
  destruct (laid_push h t st c G) as (st1 & E1 & G1). destruct (IH _ _ G1) as (st2 & E2 & G2). exists st2. cbn [pushes]. rewrite E1. cbn [bind]. rewrite <- app_assoc in G2. split; [exact E2|exact G2].
Qed.

Lemma laid_start h : 0 < h < 256 -> exists st, push cap (repeat 0 cap, O, O) h = Ok st /\ laid h [] st.
Proof.
  intro H. destruct (good_start m Hm h H) as (st & E & (mid & j & Eb & Ex & L & J & K)). exists st. split; [exact E|].
  unfold push in E. cbn [repeat] in E. unfold rd, wr in E. cbn [length Nat.ltb Nat.leb bind upd nth_error] in E. replace (1 =? cap - 1)%nat with false in E by (symmetry; apply Nat.eqb_neq; lia).
  injection E as <-. unfold laid. cbn [length fst snd] in *. rewrite Nat.mod_0_l, Nat.div_0_l by lia. rewrite N.mod_small by lia. f_equal. f_equal. f_equal.
  change (0 :: repeat 0 m) with (repeat 0 (S m)). replace (repeat 0 (S m)) with (repeat 0 m ++ [0]) by (rewrite <- repeat_cons; reflexivity). f_equal.
  clear. generalize 0%nat. induction m as [|k IH]; intro a; [reflexivity|]. cbn [repeat seq map]. f_equal. apply IH.
Qed.

Lemma shm_name_long h r a s name : 0 < h < 256 -> text r -> text name -> (m <= length (r ++ nums a s ++ name))%nat ->
  shm_name cap (h :: r) a s name = Ok (h :: long_name m (r ++ nums a s ++ name) ++ [0]).
Proof.
  intros Hh Hr Hn Len. set (t := r ++ nums a s ++ name) in *. assert (Ht : text t). { unfold t, text. apply Forall_app. split; [exact Hr|]. apply Forall_app. split; [exact (nums_text m Hm a s)|exact Hn]. }
  unfold shm_name. cbn [pushes]. destruct (laid_start h Hh) as (st0 & E0 & G0). rewrite E0. cbn [bind].
  destruct (laid_pushes h t [] st0 G0) as (st & E & G). unfold t in E. rewrite !(pushes_app m) in E.
  destruct (pushes cap st0 r) as [st1| |]; [|discriminate|discriminate]. cbn [bind] in *. rewrite !(pushes_app m) in E. destruct (pushes cap st1 (nums a s)) as [st2| |]; [|discriminate|discriminate]. cbn [bind] in *. rewrite E. cbn [bind]. clear E.
  rewrite G. cbn [app]. clear G. pose proof (Nat.div_mod (length t) m ltac:(lia)) as D. pose proof (Nat.mod_upper_bound (length t) m ltac:(lia)) as Mb. set (q := (length t / m)%nat) in *. set (rr := (length t mod m)%nat) in *. clearbody q rr.
  set (mid := map (fun i => mixed (picked m i t)) (seq 0 m)). assert (L : length mid = m) by (unfold mid; rewrite map_length, seq_length; reflexivity).
  assert (Q : exists n, n = Nat.min (length t - m) m /\ (if (q =? 0)%nat then Ok (h :: mid ++ [0]) else let y := if (1 <? q)%nat then (cap - 1)%nat else S rr in normalise (h :: mid ++ [0]) 1 (y - 1)) = normalise ([h] ++ mid ++ [0]) (length [h]) n /\ (n <= m)%nat).
  { destruct q as [|[|q]]; [exfalso; lia| |].
    - exists rr. cbn [Nat.eqb Nat.ltb Nat.leb length app]. cbv zeta. replace (S rr - 1)%nat with rr by lia. split; [lia|]. split; [reflexivity|lia].
    - exists m. cbn [Nat.eqb Nat.ltb Nat.leb length app]. cbv zeta. replace (cap - 1 - 1)%nat with m by lia. split; [nia|]. split; [reflexivity|lia]. }
  destruct Q as (n & En & Q & Ln). match goal with |- bind ?x _ = _ => replace x with (normalise ([h] ++ mid ++ [0]) (length [h]) n) by (symmetry; exact Q) end. rewrite (normalise_mid m Hm) by (rewrite app_length; cbn; lia). cbn [bind].
  rewrite firstn_app, skipn_app. replace (n - length mid)%nat with O by lia. cbn [firstn skipn]. rewrite app_nil_r.
  assert (X : map norm1 (firstn n mid) ++ skipn n mid = map (fun i => if (i + m <? length t)%nat then nth (N.to_nat (mixed (picked m i t) mod 64)) alphabet 0 else nth i t 0) (seq 0 m)).
  { unfold mid. rewrite firstn_map, skipn_map. destruct (firstn_seq n 0 m Ln) as [-> ->]. assert (Sq : seq 0 m = seq 0 n ++ seq (0 + n) (m - n)) by (rewrite <- seq_app; f_equal; lia). rewrite Sq, map_app, map_map. f_equal.
    - apply map_ext_in. intros i Hi. apply in_seq in Hi. destruct (Nat.ltb_spec (i + m) (length t)); [|lia]. apply alphabet_norm.
    - apply map_ext_in. intros i Hi. apply in_seq in Hi. destruct (Nat.ltb_spec (i + m) (length t)); [lia|]. apply mixed_one; [exact Ht|lia|lia|lia]. }
  assert (NZ : Forall (fun c => c <> 0) (map norm1 (firstn n mid) ++ skipn n mid)).
  { apply Forall_app. split; [rewrite Forall_map; apply Forall_forall; intros; apply (norm1_pos m Hm)|]. unfold mid. rewrite skipn_map. destruct (firstn_seq n 0 m Ln) as [_ ->]. rewrite Forall_map. apply Forall_forall. intros i Hi. apply in_seq in Hi.
    rewrite mixed_one by (exact Ht || lia). pose proof (text_nz m Hm t Ht) as NZt. rewrite Forall_forall in NZt. apply NZt, nth_In. lia. }
  rewrite (app_assoc (map norm1 (firstn n mid))). change 1%nat with (length [h]). replace (cap - 1)%nat with (S m) by lia.
  etransitivity; [exact (clean_text m Hm _ NZ [h] [] (S m) ltac:(rewrite app_length, map_length, firstn_length, skipn_length; lia))|]. cbn [app]. f_equal. f_equal. f_equal.
  rewrite X. unfold long_name. rewrite map_map. apply map_ext. intro i. destruct (i + m <? length t)%nat; [apply alphabet_plain|reflexivity].
Qed.
End Long.

(** ** Distinct names *)
Lemma split_dash a b x y : Forall (fun c => c <> 45) a -> Forall (fun c => c <> 45) b -> a ++ 45 :: x = b ++ 45 :: y -> a = b /\ x = y.
Proof.
  intro Ha. revert b. induction Ha as [|c a Hc Ha IH]; intros b Hb E.
  - destruct b as [|d b]; [injection E as E; split; [reflexivity|exact E]|]. inversion Hb; subst. injection E as E1 E2. congruence.
  - destruct b as [|d b]; [injection E as E1 E2; congruence|]. inversion Hb as [|? ? Hd Hb2]; subst. injection E as -> E2. destruct (IH b Hb2 E2) as [-> ->]. split; reflexivity.
Qed.

Lemma plain_id l : Forall (fun c => c <> 47 /\ c <> 92) l -> map plain l = l.
Proof.
  induction 1 as [|c l [A B] _ IH]; [reflexivity|]. cbn [map]. rewrite IH. f_equal. unfold plain. destruct (N.eqb_spec c 92); [contradiction|]. destruct (N.eqb_spec c 47); [contradiction|]. reflexivity.
Qed.

Lemma cstr_text t b : Forall (fun c => c <> 0) t -> cstr (t ++ 0 :: b) = Ok t.
Proof. induction 1 as [|c t Hc _ IH]; [reflexivity|]. cbn [app cstr]. destruct (N.eqb_spec c 0); [contradiction|]. rewrite IH. reflexivity. Qed.
