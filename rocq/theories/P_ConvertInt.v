(** Proofs about the model of convert/convert_int.cpp. *)
From Verif Require Import Base S_Numeral S_Filesize M_ConvertInt.
Open Scope N_scope.

Lemma digit_char_glyph d : d < 36 -> digit_char d = glyph d.
Proof.
  intros H.
  assert (Hall : forallb (fun d => digit_char d =? glyph d)
                   (map N.of_nat (seq 0 36)) = true) by (vm_compute; reflexivity).
  rewrite forallb_forall in Hall. apply N.eqb_eq. apply Hall.
  apply in_map_iff. exists (N.to_nat d). split; [apply N2Nat.id|].
  apply in_seq. lia.
Qed.

(** The characters in the order in which the loop stores them (right to left). *)
Fixpoint emitd (sep : N) (y : nat) (ds : list N) : list N :=
  match ds with
  | [] => []
  | d :: ds' =>
      (if (negb (sep =? 0) && negb (y =? 0)%nat && (y mod 3 =? 0)%nat)%bool then [sep] else [])
        ++ digit_char d :: emitd sep (S y) ds'
  end.

Lemma emitd_snoc sep y ds d :
  emitd sep y (ds ++ [d]) =
  emitd sep y ds ++
  (if (negb (sep =? 0) && negb (y + length ds =? 0)%nat && ((y + length ds) mod 3 =? 0)%nat)%bool
   then [sep] else []) ++ [digit_char d].
Proof.
  revert y. induction ds as [|e ds IH]; intros y.
  - cbn [emitd app length]. now rewrite Nat.add_0_r.
  - cbn [emitd app length]. rewrite IH. cbn [length].
    replace (S y + length ds)%nat with (y + S (length ds))%nat by lia.
    now rewrite <- app_assoc.
Qed.

Lemma emitd_text r sep ds :
  r <= 36 -> Forall (fun d => d < r) ds -> rev (emitd sep 0 ds) = numeral_text sep (rev ds).
Proof.
  intros Hr. unfold numeral_text.
  induction ds as [|d ds IH] using rev_ind; intros Hf.
  - cbn. now destruct (sep =? 0).
  - apply Forall_app in Hf as [Hf Hd]. inversion Hd as [|? ? Hd' _]; subst.
    rewrite emitd_snoc, !rev_app_distr, IH by auto. cbn [Nat.add rev app map].
    rewrite digit_char_glyph by lia.
    destruct (N.eqb_spec sep 0) as [->|Hs]; cbn [negb andb].
    + reflexivity.
    + destruct ds as [|e ds].
      * reflexivity.
      * cbn [length] in *.
        change (S (length ds) =? 0)%nat with false. cbn [negb andb].
        set (m := map glyph (rev (e :: ds))).
        assert (Hm : length m = S (length ds)).
        { unfold m. rewrite map_length, rev_length. reflexivity. }
        destruct m as [|m0 m1] eqn:Em; [discriminate|].
        change (group3 sep (glyph d :: m0 :: m1)) with
          (if (length (m0 :: m1) mod 3 =? 0)%nat then glyph d :: sep :: group3 sep (m0 :: m1)
           else glyph d :: group3 sep (m0 :: m1)).
        rewrite Hm.
        destruct (S (length ds) mod 3 =? 0)%nat; reflexivity.
Qed.

Lemma wr_three {A} (buf : list A) x1 v :
  (x1 < length buf)%nat -> wr buf x1 v = Ok (firstn x1 buf ++ v :: skipn (S x1) buf).
Proof. apply wr_split. Qed.

Lemma firstn_put {A} (buf : list A) k x1 v t :
  (k <= x1)%nat -> (x1 <= length buf)%nat ->
  firstn k (firstn x1 buf ++ v :: t) = firstn k buf.
Proof.
  intros H L. rewrite firstn_app, firstn_firstn, firstn_length.
  replace (Nat.min k x1) with k by lia.
  replace (k - Nat.min x1 (length buf))%nat with 0%nat by lia.
  cbn. now rewrite app_nil_r.
Qed.

Lemma skipn_put {A} (buf : list A) x1 t :
  (x1 <= length buf)%nat -> skipn x1 (firstn x1 buf ++ t) = t.
Proof.
  intros L. rewrite skipn_app, firstn_length, skipn_all2 by (rewrite firstn_length; lia).
  replace (x1 - Nat.min x1 (length buf))%nat with 0%nat by lia. reflexivity.
Qed.

Lemma put_length {A} (buf : list A) x1 v :
  (x1 < length buf)%nat -> length (firstn x1 buf ++ v :: skipn (S x1) buf) = length buf.
Proof.
  intros H. rewrite app_length, firstn_length. cbn [length]. rewrite skipn_length. lia.
Qed.

Lemma ts_loop_spec r sep n ds :
  2 <= r -> lsd r n ds ->
  forall fuel buf x y,
  (x <= length buf)%nat -> (x < fuel)%nat ->
  let em := emitd sep y ds in
  if (length em <=? x)%nat
  then ts_loop fuel buf x y n sep r =
         Ok (firstn (x - length em) buf ++ rev em ++ skipn x buf, Some (x - length em)%nat)
  else exists b', ts_loop fuel buf x y n sep r = Ok (b', None) /\
         length b' = length buf /\ skipn x b' = skipn x buf.
Proof.
  intros Hr H. induction H as [|n ds Hn H IH]; intros fuel buf x y Hx Hf.
  - destruct fuel as [|f]; [lia|]. cbn -[Nat.modulo firstn skipn]. rewrite Nat.sub_0_r, firstn_skipn. reflexivity.
  - destruct fuel as [|f]; [lia|].
    cbn [emitd ts_loop].
    assert (n =? 0 = false) as -> by now apply N.eqb_neq.
    destruct x as [|x1].
    { destruct (_ && _)%bool; cbn -[Nat.modulo]; eauto. }
    destruct (negb (sep =? 0) && negb (y =? 0)%nat && (y mod 3 =? 0)%nat)%bool.
    + rewrite wr_three by lia. cbn [bind].
      set (b1 := firstn x1 buf ++ sep :: skipn (S x1) buf).
      assert (Hb1 : length b1 = length buf) by (apply put_length; lia).
      destruct x1 as [|x2].
      { cbn [app length]. destruct (Nat.leb_spec (S (S (length (emitd sep (S y) ds)))) 1); [lia|].
        eexists; split; [reflexivity|]. split; auto. }
      rewrite wr_three by lia. cbn [bind].
      set (b2 := firstn x2 b1 ++ digit_char (n mod r) :: skipn (S x2) b1).
      assert (Hb2 : length b2 = length buf) by (unfold b2; rewrite put_length; lia).
      assert (Hs2 : skipn x2 b2 = digit_char (n mod r) :: sep :: skipn (S (S x2)) buf).
      { unfold b2. rewrite skipn_put by lia. f_equal.
        unfold b1. rewrite skipn_put by lia. reflexivity. }
      assert (Hf2 : forall k, (k <= x2)%nat -> firstn k b2 = firstn k buf).
      { intros k Hk. unfold b2. rewrite firstn_put by lia. unfold b1. now rewrite firstn_put by lia. }
      specialize (IH f b2 x2 (S y) ltac:(lia) ltac:(lia)). cbv zeta in IH.
      cbn [app length]. set (em := emitd sep (S y) ds) in *.
      destruct (Nat.leb_spec (length em) x2) as [L|L];
        destruct (Nat.leb_spec (S (S (length em))) (S (S x2))) as [L'|L']; try lia.
      * rewrite IH. rewrite Hs2, Hf2 by lia.
        replace (S (S x2) - S (S (length em)))%nat with (x2 - length em)%nat by lia.
        cbn [rev]. repeat (rewrite <- app_assoc; cbn [app]). reflexivity.
      * destruct IH as (b' & E & El & Es). exists b'. rewrite E. repeat split; try lia.
        assert (skipn 2 (skipn x2 b') = skipn 2 (skipn x2 b2)) as E2 by now rewrite Es.
        rewrite Hs2 in E2.
        rewrite skipn_skipn in E2. replace (2 + x2)%nat with (S (S x2)) in E2 by lia. 
        exact E2.
    + rewrite wr_three by lia. cbn [bind].
      set (b1 := firstn x1 buf ++ digit_char (n mod r) :: skipn (S x1) buf).
      assert (Hb1 : length b1 = length buf) by (apply put_length; lia).
      assert (Hs1 : skipn x1 b1 = digit_char (n mod r) :: skipn (S x1) buf).
      { unfold b1. now rewrite skipn_put by lia. }
      specialize (IH f b1 x1 (S y) ltac:(lia) ltac:(lia)). cbv zeta in IH.
      cbn [app length]. set (em := emitd sep (S y) ds) in *.
      destruct (Nat.leb_spec (length em) x1) as [L|L];
        destruct (Nat.leb_spec (S (length em)) (S x1)) as [L'|L']; try lia.
      * rewrite IH, Hs1. unfold b1. rewrite firstn_put by lia.
        replace (S x1 - S (length em))%nat with (x1 - length em)%nat by lia.
        cbn [rev]. repeat (rewrite <- app_assoc; cbn [app]). reflexivity.
      * destruct IH as (b' & E & El & Es). exists b'. rewrite E. repeat split; try lia.
        assert (skipn 1 (skipn x1 b') = skipn 1 (skipn x1 b1)) as E2 by now rewrite Es.
        rewrite Hs1 in E2. rewrite skipn_skipn in E2. exact E2.
Qed.

Lemma memmove_front {A} (pre s : list A) :
  memmove (pre ++ s) 0 (length pre) (length s) = Ok (s ++ skipn (length s) (pre ++ s)).
Proof.
  unfold memmove. rewrite slice_in by (rewrite app_length; lia). cbn [bind].
  rewrite skipn_app, skipn_all2, Nat.sub_diag by lia. cbn [app skipn].
  rewrite firstn_all. rewrite blit_in by (rewrite app_length; lia). reflexivity.
Qed.

Lemma lsd_Forall r n ds : 2 <= r -> lsd r n ds -> Forall (fun d => d < r) ds.
Proof. intros Hr H. induction H; constructor; auto. apply N.mod_lt; lia. Qed.

Lemma numeral_zero r : 2 <= r -> is_numeral r 0 [0].
Proof. intros Hr. repeat split; auto; try discriminate. constructor; [lia|auto]. Qed.

(** The number part shared by ToString and ToFilesizeString: write the text of [n]
    right-aligned before position [x] if it fits. *)
Lemma number_part r sep n nd fuel buf x :
  2 <= r -> r <= 36 -> n <> 0 -> is_numeral r n nd -> (x <= length buf)%nat -> (x < fuel)%nat ->
  if (length (numeral_text sep nd) <=? x)%nat
  then ts_loop fuel buf x 0 n sep r =
       Ok (firstn (x - length (numeral_text sep nd)) buf ++ numeral_text sep nd ++ skipn x buf,
           Some (x - length (numeral_text sep nd))%nat)
  else exists b', ts_loop fuel buf x 0 n sep r = Ok (b', None) /\ length b' = length buf.
Proof.
  intros Hr Hr' Hn Hnum Hx Hf.
  pose proof (numeral_rev_lsd _ _ _ Hr Hn Hnum) as HL.
  pose proof (ts_loop_spec r sep n (rev nd) Hr HL fuel buf x 0 Hx Hf) as H. cbv zeta in H.
  pose proof (emitd_text r sep (rev nd) Hr' (lsd_Forall _ _ _ Hr HL)) as E.
  rewrite rev_involutive in E. rewrite <- E, rev_length.
  destruct (length (emitd sep 0 (rev nd)) <=? x)%nat; [exact H|].
  destruct H as (b' & H1 & H2 & _). eauto.
Qed.

Lemma upd_last (buf : bytes) v :
  (1 <= length buf)%nat -> upd buf (length buf - 1) v = firstn (length buf - 1) buf ++ [v].
Proof.
  intros H. rewrite upd_split by lia. do 2 f_equal. apply skipn_all2. lia.
Qed.

Lemma text_nonempty sep nd : nd <> [] -> (1 <= length (numeral_text sep nd))%nat.
Proof.
  intros H. unfold numeral_text. destruct (sep =? 0).
  - rewrite map_length. destruct nd; [congruence|cbn; lia].
  - rewrite group3_length, map_length. destruct nd; [congruence|cbn [length]; lia].
Qed.

Lemma ToStringU_ok buf num sep radix nd :
  2 <= radix <= 36 -> is_numeral radix num nd ->
  (length (numeral_text sep nd) + 1 <= length buf)%nat ->
  exists rest, ToStringU buf num sep radix = Ok (numeral_text sep nd ++ 0 :: rest, true) /\
    length (numeral_text sep nd ++ 0 :: rest) = length buf.
Proof.
  intros Hr Hnum Hfit. unfold ToStringU.
  pose proof (text_nonempty sep nd ltac:(apply Hnum)) as Hpos.
  destruct (Nat.ltb_spec (length buf) 2); [lia|].
  destruct (N.ltb_spec radix 2); [lia|]. destruct (N.ltb_spec 36 radix); [lia|]. cbn [orb].
  rewrite wr_in by lia. cbn [bind]. set (b1 := upd buf (length buf - 1) 0).
  assert (Hb1 : length b1 = length buf) by apply upd_length.
  assert (Hb1' : b1 = firstn (length buf - 1) buf ++ [0]) by (apply upd_last; lia).
  assert (Hs1 : skipn (length buf - 1) b1 = [0]) by (rewrite Hb1'; apply skipn_put; lia).
  set (t := numeral_text sep nd) in *.
  assert (Hmain : forall x,
    (if num =? 0 then let* b2 := wr b1 (length buf - 2) 48 in Ok (b2, Some (length buf - 2)%nat)
     else ts_loop (S (length buf)) b1 (length buf - 1) 0 num sep radix)
    = Ok (firstn x b1 ++ t ++ [0], Some x) /\ x = (length buf - 1 - length t)%nat ->
    exists rest,
    (let* r := (if num =? 0 then let* b2 := wr b1 (length buf - 2) 48 in Ok (b2, Some (length buf - 2)%nat)
     else ts_loop (S (length buf)) b1 (length buf - 1) 0 num sep radix) in
     match r with
     | (b2, Some x) => let* b3 := memmove b2 0 x (length buf - x) in Ok (b3, true)
     | (b2, None) => Ok (b2, false)
     end) = Ok (t ++ 0 :: rest, true) /\ length (t ++ 0 :: rest) = length buf).
  { intros x [E Ex]. rewrite E. cbn [bind].
    set (pre := firstn x b1). assert (length pre = x) as Hpre by (unfold pre; rewrite firstn_length; lia).
    replace (length buf - x)%nat with (length (t ++ [0])) by (rewrite app_length; cbn [length]; lia).
    pose proof (memmove_front pre (t ++ [0])) as Hm. rewrite Hpre in Hm. rewrite Hm. cbn [bind].
    rewrite <- app_assoc. cbn [app]. eexists; split; [reflexivity|].
    repeat rewrite ?app_length, ?skipn_length. cbn [length].
    repeat rewrite ?app_length, ?skipn_length. cbn [length]. lia. }
  apply (Hmain (length buf - 1 - length t)%nat). split; auto.
  destruct (N.eqb_spec num 0) as [->|Hn].
  - assert (nd = [0]) by (apply (numeral_unique radix 0); [lia|exact Hnum|apply numeral_zero; lia]). subst nd.
    assert (Ht : t = [48]) by (unfold t, numeral_text; now destruct (sep =? 0)).
    rewrite Ht in *. cbn [length]. replace (length buf - 1 - 1)%nat with (length buf - 2)%nat by lia.
    rewrite wr_split by lia. cbn [bind]. do 3 f_equal.
    replace (S (length buf - 2)) with (length buf - 1)%nat by lia. now rewrite Hs1.
  - pose proof (number_part radix sep num nd (S (length buf)) b1 (length buf - 1)
                  ltac:(lia) ltac:(lia) Hn Hnum ltac:(lia) ltac:(lia)) as H2.
    fold t in H2. destruct (Nat.leb_spec (length t) (length buf - 1)); [|lia].
    rewrite H2, Hs1. reflexivity.
Qed.

Lemma ToStringU_fail buf num sep radix nd :
  2 <= radix <= 36 -> is_numeral radix num nd ->
  (length buf < length (numeral_text sep nd) + 1)%nat ->
  exists b', ToStringU buf num sep radix = Ok (b', false) /\ length b' = length buf.
Proof.
  intros Hr Hnum Hfit. unfold ToStringU.
  pose proof (text_nonempty sep nd ltac:(apply Hnum)) as Hpos.
  destruct (Nat.ltb_spec (length buf) 2); [cbn; eauto|].
  destruct (N.ltb_spec radix 2); [lia|]. destruct (N.ltb_spec 36 radix); [lia|]. cbn [orb].
  rewrite wr_in by lia. cbn [bind]. set (b1 := upd buf (length buf - 1) 0).
  assert (Hb1 : length b1 = length buf) by apply upd_length.
  destruct (N.eqb_spec num 0) as [->|Hn].
  - assert (nd = [0]) by (apply (numeral_unique radix 0); [lia|exact Hnum|apply numeral_zero; lia]). subst nd.
    assert (length (numeral_text sep [0]) = 1%nat) by (unfold numeral_text; now destruct (sep =? 0)).
    lia.
  - pose proof (number_part radix sep num nd (S (length buf)) b1 (length buf - 1)
                  ltac:(lia) ltac:(lia) Hn Hnum ltac:(lia) ltac:(lia)) as H2.
    destruct (Nat.leb_spec (length (numeral_text sep nd)) (length buf - 1)); [lia|].
    destruct H2 as (b' & E & L). rewrite E. cbn [bind]. exists b'. split; auto. lia.
Qed.

Lemma ToStringU_bad buf num sep radix :
  (length buf < 2)%nat \/ radix < 2 \/ 36 < radix -> ToStringU buf num sep radix = Ok (buf, false).
Proof.
  intros H. unfold ToStringU.
  destruct (Nat.ltb_spec (length buf) 2); [reflexivity|].
  destruct (N.ltb_spec radix 2); [reflexivity|].
  destruct (N.ltb_spec 36 radix); [reflexivity|]. lia.
Qed.

(** The complete behaviour of the unsigned formatter. *)
Lemma ToStringU_total buf num sep radix :
  exists b' ok, ToStringU buf num sep radix = Ok (b', ok) /\ length b' = length buf /\
  (ok = true <->
     2 <= radix <= 36 /\ exists nd, is_numeral radix num nd /\
       (length (numeral_text sep nd) + 1 <= length buf)%nat) /\
  (ok = true -> forall nd, is_numeral radix num nd ->
     exists rest, b' = numeral_text sep nd ++ 0 :: rest).
Proof.
  destruct (N.ltb_spec radix 2) as [H|H];
    [|destruct (N.ltb_spec 36 radix) as [H'|H']].
  - exists buf, false. rewrite ToStringU_bad by auto. repeat split; try discriminate.
    intros [Hr _]; lia.
  - exists buf, false. rewrite ToStringU_bad by auto. repeat split; try discriminate.
    intros [Hr _]; lia.
  - destruct (numeral_exists radix num H) as [nd Hnd].
    destruct (Nat.leb_spec (length (numeral_text sep nd) + 1) (length buf)) as [L|L].
    + destruct (ToStringU_ok buf num sep radix nd ltac:(lia) Hnd L) as (rest & E & El).
      exists (numeral_text sep nd ++ 0 :: rest), true. rewrite E. repeat split; auto.
      * eauto.
      * intros _ nd' Hnd'. rewrite (numeral_unique _ _ _ _ H Hnd' Hnd). eauto.
    + destruct (ToStringU_fail buf num sep radix nd ltac:(lia) Hnd L) as (b' & E & El).
      exists b', false. rewrite E. repeat split; auto; try discriminate.
      intros (_ & nd' & Hnd' & L'). rewrite (numeral_unique _ _ _ _ H Hnd' Hnd) in L'. lia.
Qed.

(** Signed values. *)
Lemma ToStringI_total buf num sep radix :
  (- 2^63 < num)%Z ->
  exists b' ok, ToStringI buf num sep radix = Ok (b', ok) /\ length b' = length buf /\
  (ok = true <->
     2 <= radix <= 36 /\ exists nd, is_numeral radix (Z.to_N (Z.abs num)) nd /\
       ((if num <? 0 then 1 else 0)%Z + Z.of_nat (length (numeral_text sep nd)) + 1
          <= Z.of_nat (length buf))%Z) /\
  (ok = true -> forall nd, is_numeral radix (Z.to_N (Z.abs num)) nd ->
     exists rest, b' = (if (num <? 0)%Z then [45] else []) ++ numeral_text sep nd ++ 0 :: rest).
Proof.
  intros Hmin. unfold ToStringI.
  destruct (Z.leb_spec 0 num) as [Hp|Hp].
  - assert ((num <? 0)%Z = false) as -> by (apply Z.ltb_ge; lia).
    rewrite (Z.abs_eq num) by lia. cbn [app].
    destruct (ToStringU_total buf (Z.to_N num) sep radix) as (b' & ok & E & El & Hok & Ht).
    exists b', ok. rewrite E. split; [auto|]. split; [auto|]. split; [split|exact Ht].
    + intros Ho. apply Hok in Ho as (Hr & nd & Hnd & L). split; auto. exists nd. split; auto. lia.
    + intros (Hr & nd & Hnd & L). apply Hok. split; auto. exists nd. split; auto. lia.
  - assert ((num <? 0)%Z = true) as -> by (apply Z.ltb_lt; lia).
    destruct (Nat.ltb_spec (length buf) 2) as [L2|L2].
    { exists buf, false. repeat split; auto; try discriminate.
      intros (Hr & nd & Hnd & L).
      pose proof (text_nonempty sep nd ltac:(apply Hnd)). lia. }
    rewrite wr_in by lia. cbn [bind]. unfold neg64.
    destruct (Z.eqb_spec num (- 2 ^ 63)); [lia|]. cbn [bind].
    rewrite (Z.abs_neq num) by lia.
    destruct buf as [|c buf]; [cbn in L2; lia|]. cbn [upd skipn firstn].
    destruct (ToStringU_total buf (Z.to_N (- num)) sep radix) as (b' & ok & E & El & Hok & Ht).
    rewrite E. cbn [bind]. exists (45 :: b'), ok. cbn [app length] in *.
    split; [auto|]. split; [auto|]. split; [split|].
    + intros Ho. apply Hok in Ho as (Hr & nd & Hnd & L). split; auto. exists nd. split; auto. lia.
    + intros (Hr & nd & Hnd & L). apply Hok. split; auto. exists nd. split; auto. lia.
    + intros Ho nd Hnd. destruct (Ht Ho nd Hnd) as (rest & ->). eauto.
Qed.

Lemma ToStringI_min_ub buf sep radix :
  (2 <= length buf)%nat -> ToStringI buf (- 2^63) sep radix = UB.
Proof.
  intros H. unfold ToStringI. change (0 <=? - 2 ^ 63)%Z with false. cbv iota.
  destruct (Nat.ltb_spec (length buf) 2); [lia|]. rewrite wr_in by lia. reflexivity.
Qed.

(** ** File sizes *)

Lemma fs_scale_spec n e : e < W64 -> fs_scale n e = (e * 10 ^ N.of_nat n) mod W64.
Proof.
  revert e. induction n as [|n IH]; intros e He.
  - cbn [fs_scale]. change (N.of_nat 0) with 0. rewrite N.pow_0_r, N.mul_1_r, N.mod_small; auto.
  - cbn [fs_scale]. rewrite IH by (apply N.mod_lt; discriminate).
    unfold w64. rewrite N.mul_mod_idemp_l by discriminate.
    rewrite Nat2N.inj_succ, N.pow_succ_r'. f_equal. lia.
Qed.

Lemma frac1_spec nf : forall buf x e,
  (nf <= x)%nat -> (x <= length buf)%nat -> e < 10 ^ N.of_nat nf ->
  exists ds, (length ds <= nf)%nat /\ Forall (fun d => d < 10) ds /\ value 10 ds = e /\
    fs_frac1 buf x e nf =
      Ok (firstn (x - length ds) buf ++ map glyph ds ++ skipn x buf,
          (x - length ds)%nat, 0, (nf - length ds)%nat).
Proof.
  induction nf as [|nf IH]; intros buf x e Hn Hx He.
  - change (N.of_nat 0) with 0 in He. rewrite N.pow_0_r in He. assert (e = 0) as -> by lia.
    exists []. cbn. rewrite Nat.sub_0_r, firstn_skipn. auto.
  - cbn [fs_frac1]. destruct (N.eqb_spec e 0) as [->|Hne].
    + exists []. cbn [length map app]. rewrite !Nat.sub_0_r, firstn_skipn. repeat split; auto. cbn [length]; lia.
    + destruct x as [|x1]; [lia|]. rewrite wr_split by lia. cbn [bind].
      set (b1 := firstn x1 buf ++ (e mod 10 + 48) :: skipn (S x1) buf).
      destruct (IH b1 x1 (e / 10)) as (ds & L & F & V & E).
      * lia.
      * unfold b1. rewrite put_length; lia.
      * rewrite Nat2N.inj_succ, N.pow_succ_r' in He. apply N.div_lt_upper_bound; lia.
      * exists (ds ++ [e mod 10]). rewrite app_length. cbn [length].
        split; [lia|]. split; [apply Forall_app; split; auto; constructor; auto; apply N.mod_lt; lia|].
        split; [rewrite value_snoc, V; dlia|].
        rewrite E. unfold b1. rewrite firstn_put, skipn_put by lia.
        rewrite map_app. cbn [map].
        assert (glyph (e mod 10) = e mod 10 + 48) as ->.
        { assert (e mod 10 < 10) by (apply N.mod_lt; lia).
          rewrite <- digit_char_glyph by lia. unfold digit_char.
          destruct (N.ltb_spec 9 (e mod 10)); lia. }
        rewrite <- app_assoc. cbn [app].
        replace (S x1 - (length ds + 1))%nat with (x1 - length ds)%nat by lia.
        replace (S nf - (length ds + 1))%nat with (nf - length ds)%nat by lia. reflexivity.
Qed.

Lemma frac2_spec nf : forall buf x,
  (nf <= x)%nat -> (x <= length buf)%nat ->
  fs_frac2 buf x nf = Ok (firstn (x - nf) buf ++ repeat 48 nf ++ skipn x buf, (x - nf)%nat, 0%nat).
Proof.
  induction nf as [|nf IH]; intros buf x Hn Hx; cbn [fs_frac2].
  - cbn [repeat app]. rewrite Nat.sub_0_r, firstn_skipn. reflexivity.
  - destruct x as [|x1]; [lia|]. rewrite wr_split by lia. cbn [bind].
    rewrite IH; [|lia|rewrite put_length; lia].
    rewrite firstn_put, skipn_put by lia.
    replace (S x1 - S nf)%nat with (x1 - nf)%nat by lia.
    replace (repeat 48 (S nf)) with (repeat 48 nf ++ [48]); [|symmetry; apply repeat_cons].
    rewrite <- app_assoc. reflexivity.
Qed.

Lemma value_zeros n ds : value 10 (repeat 0 n ++ ds) = value 10 ds.
Proof. induction n as [|n IH]; [reflexivity|]. cbn [repeat app]. unfold value in *. cbn. exact IH. Qed.

Lemma fraction_spec buf x num divider nf decsep :
  (x <= length buf)%nat -> num < W64 -> 0 < divider -> divider < W64 ->
  (W64 / divider < 10 ^ N.of_nat nf \/ (num mod divider) * 10 ^ N.of_nat nf < W64) ->
  let v := ((num mod divider) * 10 ^ N.of_nat nf) mod W64 / divider in
  nf <> 0%nat ->
  if (x <? nf + 2)%nat then fs_fraction buf x num divider nf decsep = Ok (buf, None)
  else exists fd, padded nf v fd /\
    fs_fraction buf x num divider nf decsep =
      Ok (firstn (x - nf - 1) buf ++ decsep :: map glyph fd ++ skipn x buf, Some (x - nf - 1)%nat).
Proof.
  intros Hx Hnum Hd Hd' Hsmall v Hnf. unfold fs_fraction.
  destruct nf as [|nf0]; [congruence|]. set (nf := S nf0) in *.
  destruct (Nat.ltb_spec x (nf + 2)) as [L|L]; [reflexivity|].
  assert (Hm : num mod divider < W64) by (pose proof (N.mod_lt num divider); lia).
  rewrite fs_scale_spec by auto. fold v.
  assert (Hv : v < 10 ^ N.of_nat nf).
  { unfold v. destruct Hsmall as [H|H].
    - eapply N.le_lt_trans; [|exact H]. apply N.div_le_mono; [lia|].
      apply N.lt_le_incl, N.mod_lt. discriminate.
    - rewrite N.mod_small by auto. apply N.div_lt_upper_bound; [lia|].
      apply N.mul_lt_mono_pos_r; [|apply N.mod_lt; lia].
      apply N.neq_0_lt_0, N.pow_nonzero; lia. }
  destruct (frac1_spec nf buf x v ltac:(lia) Hx Hv) as (ds & Ld & Fd & Vd & E).
  rewrite E. cbn [bind]. rewrite frac2_spec.
  2: lia.
  2: { rewrite !app_length, firstn_length, map_length, skipn_length. lia. }
  cbn [bind negb orb N.eqb]. 
  replace (x - length ds - (nf - length ds))%nat with (x - nf)%nat by lia.
  destruct (Nat.eqb_spec (x - nf) 0); [lia|]. cbn [orb].
  set (b2 := firstn (x - nf) _ ++ _).
  assert (Hb2 : b2 = firstn (x - nf) buf ++ map glyph (repeat 0 (nf - length ds) ++ ds) ++ skipn x buf).
  { unfold b2. rewrite map_app. rewrite <- app_assoc.
    assert (map glyph (repeat 0 (nf - length ds)) = repeat 48 (nf - length ds)) as ->.
    { generalize (nf - length ds)%nat. intros k; induction k; cbn; f_equal; auto. }
    f_equal; [|f_equal].
    - rewrite firstn_app, firstn_firstn, firstn_length.
      replace (Nat.min (x - nf) (x - length ds)) with (x - nf)%nat by lia.
      replace (x - nf - Nat.min (x - length ds) (length buf))%nat with 0%nat by lia.
      cbn [firstn]. now rewrite app_nil_r.
    - apply skipn_put. lia. }
  assert (Lb2 : length b2 = length buf).
  { rewrite Hb2, !app_length, firstn_length, map_length, app_length, repeat_length, skipn_length. lia. }
  rewrite wr_split by lia. cbn [bind].
  destruct (Nat.eqb_spec (x - nf - 1) 0); [lia|].
  exists (repeat 0 (nf - length ds) ++ ds). split.
  - repeat split.
    + rewrite app_length, repeat_length. lia.
    + apply Forall_app; split; auto. apply Forall_forall. intros d Hd0. apply repeat_spec in Hd0. lia.
    + now rewrite value_zeros.
  - do 3 f_equal.
    + rewrite Hb2. rewrite firstn_app, firstn_firstn, firstn_length.
      replace (Nat.min (x - nf - 1) (x - nf)) with (x - nf - 1)%nat by lia.
      replace (x - nf - 1 - Nat.min (x - nf) (length buf))%nat with 0%nat by lia.
      cbn [firstn]. now rewrite app_nil_r.
    + f_equal. replace (S (x - nf - 1)) with (x - nf)%nat by lia. rewrite Hb2. apply skipn_put. lia.
Qed.

Lemma fs_unit_spec num numfrac :
  exists k, is_unit (negb (numfrac =? 0)) num k /\
    fs_unit num numfrac = (unit_letter k, unit_size k, shown_frac k numfrac).
Proof.
  unfold fs_unit.
  destruct (N.eqb_spec numfrac 0) as [->|Hnf]; cbn [negb].
  - destruct (N.leb_spec 1152921504606846976 num); [exists 6|
    destruct (N.leb_spec 1125899906842624 num); [exists 5|
    destruct (N.leb_spec 1099511627776 num); [exists 4|
    destruct (N.leb_spec 1073741824 num); [exists 3|
    destruct (N.leb_spec 1048576 num); [exists 2|
    destruct (N.leb_spec 1024 num); [exists 1|exists 0]]]]]].
    all: split; [|reflexivity].
    all: unfold is_unit; cbn; lia.
  - destruct (N.leb_spec 1125899906842624000 num); [exists 6|
    destruct (N.leb_spec 1099511627776000 num); [exists 5|
    destruct (N.leb_spec 1073741824000 num); [exists 4|
    destruct (N.leb_spec 1048576000 num); [exists 3|
    destruct (N.leb_spec 1024000 num); [exists 2|
    destruct (N.leb_spec 1024 num); [exists 1|exists 0]]]]]].
    all: split; [|reflexivity].
    all: unfold is_unit; cbn; lia.
Qed.

Lemma le6_cases k : k <= 6 -> k = 0 \/ k = 1 \/ k = 2 \/ k = 3 \/ k = 4 \/ k = 5 \/ k = 6.
Proof. lia. Qed.

Lemma is_unit_unique fr num k k' : is_unit fr num k -> is_unit fr num k' -> k = k'.
Proof.
  intros (L & A & B) (L' & A' & B').
  apply le6_cases in L. apply le6_cases in L'.
  destruct fr;
  destruct L as [->|[->|[->|[->|[->|[->| ->]]]]]];
  destruct L' as [->|[->|[->|[->|[->|[->| ->]]]]]]; try reflexivity; exfalso;
  cbn in *; lia.
Qed.

Lemma unit_size_pos k : 0 < unit_size k.
Proof. unfold unit_size. apply N.neq_0_lt_0, N.pow_nonzero. discriminate. Qed.

Lemma unit_size_lt k : k <= 6 -> unit_size k < W64.
Proof.
  intros H. unfold unit_size, W64. apply N.pow_lt_mono_r; lia.
Qed.

Lemma text_zero sep : numeral_text sep [0] = [48].
Proof. unfold numeral_text. now destruct (sep =? 0). Qed.

(** The last part of ToFilesizeString: integral part, then move to the front. *)
Lemma fs_tail buf x q numsep qd t size :
  is_numeral 10 q qd -> length buf = size -> (1 <= x)%nat -> (x <= size)%nat -> skipn x buf = t ->
  let r4 := (if q =? 0
             then match x with
                  | O => UB
                  | S x4 => let* b4 := wr buf x4 48 in Ok (b4, Some x4)
                  end
             else ts_loop (S x) buf x 0 q numsep 10) in
  exists b' ok,
  (let* r := r4 in
   match r with
   | (b4, None) => Ok (b4, false)
   | (b4, Some x4) => let* b5 := memmove b4 0 x4 (size - x4) in Ok (b5, true)
   end) = Ok (b', ok) /\ length b' = size /\
  (ok = true <-> (length (numeral_text numsep qd) <= x)%nat) /\
  (ok = true -> exists rest, b' = numeral_text numsep qd ++ t ++ rest).
Proof.
  intros Hq Hlen Hx Hxs Ht r4.
  set (qt := numeral_text numsep qd).
  assert (Hgood : (length qt <= x)%nat ->
     r4 = Ok (firstn (x - length qt) buf ++ qt ++ t, Some (x - length qt)%nat)).
  { intros Hle. unfold r4. destruct (N.eqb_spec q 0) as [->|Hne].
    - assert (qd = [0]) as Eqd by (apply (numeral_unique 10 0); [lia|exact Hq|apply numeral_zero; lia]).
      unfold qt in *. rewrite Eqd, text_zero in *. cbn [length] in *.
      destruct x as [|x4]; [lia|]. rewrite wr_split by lia. cbn [bind].
      replace (S x4 - 1)%nat with x4 by lia. rewrite Ht. reflexivity.
    - pose proof (number_part 10 numsep q qd (S x) buf x ltac:(lia) ltac:(lia) Hne Hq ltac:(lia) ltac:(lia)) as H.
      fold qt in H. destruct (Nat.leb_spec (length qt) x); [|lia]. rewrite H, Ht. reflexivity. }
  assert (Hbad : (x < length qt)%nat -> exists b', r4 = Ok (b', None) /\ length b' = size).
  { intros Hlt. unfold r4. destruct (N.eqb_spec q 0) as [->|Hne].
    - assert (qd = [0]) as Eqd by (apply (numeral_unique 10 0); [lia|exact Hq|apply numeral_zero; lia]).
      unfold qt in *. rewrite Eqd, text_zero in *. cbn [length] in *. lia.
    - pose proof (number_part 10 numsep q qd (S x) buf x ltac:(lia) ltac:(lia) Hne Hq ltac:(lia) ltac:(lia)) as H.
      fold qt in H. destruct (Nat.leb_spec (length qt) x); [lia|].
      destruct H as (b' & E & L). exists b'. split; auto. lia. }
  destruct (Nat.leb_spec (length qt) x) as [L|L].
  - rewrite (Hgood L). cbn [bind].
    set (pre := firstn (x - length qt) buf).
    assert (Hpre : length pre = (x - length qt)%nat) by (unfold pre; rewrite firstn_length; lia).
    assert (Htl : length t = (size - x)%nat) by (rewrite <- Ht, skipn_length; lia).
    pose proof (memmove_front pre (qt ++ t)) as Hm. rewrite Hpre in Hm.
    replace (size - (x - length qt))%nat with (length (qt ++ t)) by (rewrite app_length; lia).
    rewrite Hm. cbn [bind]. eexists _, true. split; [reflexivity|].
    split; [repeat rewrite ?app_length, ?skipn_length; lia|].
    split; [split; auto|]. intros _. rewrite <- app_assoc. eauto.
  - destruct (Hbad L) as (b' & E & Lb). rewrite E. cbn [bind].
    exists b', false. split; [reflexivity|]. split; auto. split; [split; [discriminate|lia]|discriminate].
Qed.

(** The complete behaviour of the file-size formatter.  The fraction digits shown are those
    of the remainder scaled modulo 2^64. *)
Lemma ToFilesizeU_total buf num numfrac numsep decsep unitsep unit :
  num < W64 ->
  exists b' ok k text,
    ToFilesizeU buf num numfrac numsep decsep unitsep unit = Ok (b', ok) /\
    length b' = length buf /\
    is_unit (negb (numfrac =? 0)) num k /\
    let nf := shown_frac k numfrac in
    size_text k nf (num / unit_size k)
      (((num mod unit_size k) * 10 ^ nf) mod W64 / unit_size k)
      numsep decsep unitsep unit text /\
    (ok = true <-> (5 + length unit <= length buf)%nat /\ (length text + 1 <= length buf)%nat) /\
    (ok = true -> exists rest, b' = text ++ 0 :: rest).
Proof.
  intros Hnum. destruct (fs_unit_spec num numfrac) as (k & Hk & Ek).
  set (nf := shown_frac k numfrac) in *. set (U := unit_size k) in *.
  assert (HU : 0 < U) by apply unit_size_pos.
  assert (HU' : U < W64) by (apply unit_size_lt; apply Hk).
  set (q := num / U). set (v := ((num mod U) * 10 ^ nf) mod W64 / U).
  destruct (numeral_exists 10 q ltac:(lia)) as [qd Hqd].
  assert (Hsmall : W64 / U < 10 ^ nf \/ (num mod U) * 10 ^ nf < W64).
  { destruct (N.ltb_spec ((num mod U) * 10 ^ nf) W64) as [H|H]; [now right|left].
    apply N.div_lt_upper_bound; [lia|].
    eapply N.le_lt_trans; [exact H|]. apply N.mul_lt_mono_pos_r; [|apply N.mod_lt; lia].
    apply N.neq_0_lt_0, N.pow_nonzero; lia. }
  assert (Hv : v < 10 ^ nf).
  { unfold v. destruct Hsmall as [H|H].
    - eapply N.le_lt_trans; [|exact H]. apply N.div_le_mono; [lia|].
      apply N.lt_le_incl, N.mod_lt. discriminate.
    - rewrite N.mod_small by auto. apply N.div_lt_upper_bound; [lia|].
      apply N.mul_lt_mono_pos_r; [|apply N.mod_lt; lia].
      apply N.neq_0_lt_0, N.pow_nonzero; lia. }
  (* some padded digits of v, for the text *)
  assert (Hpad : exists fd, padded (N.to_nat nf) v fd).
  { destruct (frac1_spec (N.to_nat nf) (repeat 0 (N.to_nat nf)) (N.to_nat nf) v) as (ds & L & F & V & _).
    - lia.
    - rewrite repeat_length; lia.
    - now rewrite N2Nat.id.
    - exists (repeat 0 (N.to_nat nf - length ds) ++ ds). repeat split.
      + rewrite app_length, repeat_length. lia.
      + apply Forall_app; split; auto. apply Forall_forall. intros d Hd0. apply repeat_spec in Hd0. lia.
      + now rewrite value_zeros. }
  unfold ToFilesizeU. rewrite Ek. cbv zeta.
  set (us := if k =? 0 then unit else [unit_letter k; 66]).
  set (suffix := (if unitsep =? 0 then [] else [unitsep]) ++ us).
  destruct (Nat.ltb_spec (length buf) (5 + length unit)) as [Lg|Lg].
  { destruct Hpad as [fd Hfd].
    exists buf, false, k, (numeral_text numsep qd
           ++ (if nf =? 0 then [] else decsep :: map glyph fd) ++ suffix).
    split; [reflexivity|]. split; [auto|]. split; [exact Hk|]. split.
    { exists qd, fd. auto. }
    split; [split; [discriminate|lia]|discriminate]. }
  (* unit part *)
  assert (Hletter : (unit_letter k =? 0) = (k =? 0)).
  { assert (k <= 6) as L by apply Hk.
    destruct (le6_cases k L) as [->|[->|[->|[->|[->|[->| ->]]]]]]; reflexivity. }
  rewrite Hletter.
  set (size := length buf) in *.
  assert (Hus : (length us <= length unit + 2)%nat) by (unfold us; destruct (k =? 0); cbn [length]; lia).
  assert (Hus2 : (length us <= size - 3)%nat).
  { unfold us. destruct (k =? 0); cbn [length]; lia. }
  assert (H1 : exists b1, (if negb (k =? 0) then
                  let* b1 := wr buf (size - 1) 0 in
                  let* b2 := wr b1 (size - 2) 66 in
                  let* b3 := wr b2 (size - 3) (unit_letter k) in
                  Ok (b3, (size - 3)%nat)
                else
                  let* b1 := blit buf (size - length unit - 1) (unit ++ [0]) in
                  Ok (b1, (size - length unit - 1)%nat)) = Ok (b1, (size - length us - 1)%nat) /\
                length b1 = size /\ skipn (size - length us - 1) b1 = us ++ [0]).
  { unfold us. destruct (k =? 0); cbn [negb length].
    - rewrite blit_in by (rewrite app_length; cbn [length]; lia). cbn [bind].
      eexists; split; [reflexivity|].
      assert (skipn (size - length unit - 1 + length (unit ++ [0])) buf = []) as ->.
      { apply skipn_all2. rewrite app_length; cbn [length]; lia. }
      rewrite app_nil_r. split.
      + rewrite !app_length, firstn_length; cbn [length]; lia.
      + apply skipn_put; lia.
    - rewrite wr_in by lia. cbn [bind]. rewrite wr_in by (rewrite upd_length; lia). cbn [bind].
      rewrite wr_in by (rewrite !upd_length; lia). cbn [bind].
      replace (size - 2 - 1)%nat with (size - 3)%nat by lia.
      eexists; split; [reflexivity|]. split; [now rewrite !upd_length|].
      rewrite (upd_split (upd _ (size - 2) _)) by (rewrite !upd_length; lia).
      rewrite skipn_put by (rewrite !upd_length; lia). cbn [app]. f_equal.
      replace (S (size - 3)) with (size - 2)%nat by lia.
      rewrite (upd_split (upd _ (size - 1) _)) by (rewrite !upd_length; lia).
      rewrite skipn_put by (rewrite !upd_length; lia). f_equal.
      replace (S (size - 2)) with (size - 1)%nat by lia.
      rewrite upd_split by lia. rewrite skipn_put by lia. f_equal. apply skipn_all2. lia. }
  destruct H1 as (b1 & E1 & L1 & S1). rewrite E1. cbn [bind]. clear E1.
  (* unit separator *)
  set (x1 := (size - length us - 1)%nat) in *.
  set (x2 := if unitsep =? 0 then x1 else (x1 - 1)%nat).
  assert (Hx1 : (2 <= x1)%nat) by lia.
  assert (H2 : exists b2, (if negb (unitsep =? 0)
                then let* b2 := wr b1 (x1 - 1) unitsep in Ok (b2, (x1 - 1)%nat)
                else Ok (b1, x1)) = Ok (b2, x2) /\ length b2 = size /\
                skipn x2 b2 = suffix ++ [0]).
  { unfold x2, suffix. destruct (unitsep =? 0); cbn [negb].
    - exists b1. auto.
    - rewrite wr_split by lia. cbn [bind]. eexists; split; [reflexivity|].
      split; [rewrite put_length; lia|]. rewrite skipn_put by lia.
      replace (S (x1 - 1)) with x1 by lia. now rewrite S1. }
  destruct H2 as (b2 & E2 & L2 & S2). rewrite E2. cbn [bind]. clear E2.
  assert (Hx2 : (1 <= x2 <= x1)%nat) by (unfold x2; destruct (unitsep =? 0); lia).
  assert (Hx2s : (x2 + length suffix + 1 = size)%nat).
  { unfold suffix, x2. rewrite app_length. destruct (unitsep =? 0); cbn [length]; lia. }
  (* fraction *)
  destruct (N.eqb_spec nf 0) as [Hnf|Hnf].
  - (* no fraction digits *)
    rewrite Hnf. change (N.to_nat 0) with 0%nat. cbn [fs_fraction bind].
    destruct (fs_tail b2 x2 q numsep qd (suffix ++ [0]) size Hqd L2 ltac:(lia) ltac:(lia) S2)
      as (b' & ok & E & Lb & Hok & Ht).
    fold q. rewrite E.
    exists b', ok, k, (numeral_text numsep qd ++ suffix).
    split; [reflexivity|]. split; [auto|]. split; [exact Hk|]. split.
    { fold nf U. fold q. fold v. destruct Hpad as [fd Hfd]. exists qd, fd.
      split; [auto|]. split; [exact Hfd|]. rewrite Hnf. reflexivity. }
    rewrite app_length. split.
    + rewrite Hok. split; intros; [split|]; lia.
    + intros Ho. destruct (Ht Ho) as (rest & ->). exists rest.
      now repeat (rewrite <- app_assoc; cbn [app]).
  - assert (Hnf' : N.to_nat nf <> 0%nat) by lia.
    assert (Hsm' : W64 / U < 10 ^ N.of_nat (N.to_nat nf) \/
                   (num mod U) * 10 ^ N.of_nat (N.to_nat nf) < W64) by (rewrite N2Nat.id; exact Hsmall).
    pose proof (fraction_spec b2 x2 num U (N.to_nat nf) decsep ltac:(lia) Hnum HU HU' Hsm') as Hfr.
    cbv zeta in Hfr. specialize (Hfr Hnf'). rewrite N2Nat.id in Hfr. fold v in Hfr.
    pose proof (text_nonempty numsep qd ltac:(apply Hqd)) as Hqpos.
    destruct (Nat.ltb_spec x2 (N.to_nat nf + 2)) as [Lx|Lx].
    + rewrite Hfr. cbn [bind].
      destruct Hpad as [fd Hfd].
      exists b2, false, k, (numeral_text numsep qd ++ (decsep :: map glyph fd) ++ suffix).
      split; [reflexivity|]. split; [auto|]. split; [exact Hk|]. split.
      { exists qd, fd. fold nf U q v. repeat split; try apply Hqd; try apply Hfd.
        destruct (N.eqb_spec nf 0); [lia|]. reflexivity. }
      split; [|discriminate]. split; [discriminate|]. intros [_ Hl].
      destruct Hfd as (Lf & _ & _).
      rewrite !app_length in Hl. cbn [length] in Hl. rewrite map_length, Lf in Hl. lia.
    + destruct Hfr as (fd & Hfd & E). rewrite E. cbn [bind]. clear E.
      set (b3 := firstn (x2 - N.to_nat nf - 1) b2 ++ decsep :: map glyph fd ++ skipn x2 b2).
      destruct Hfd as (Lf & Ff & Vf).
      assert (L3 : length b3 = size).
      { unfold b3. rewrite app_length, firstn_length. cbn [length].
        rewrite app_length, map_length, skipn_length. lia. }
      assert (S3 : skipn (x2 - N.to_nat nf - 1) b3 = (decsep :: map glyph fd) ++ suffix ++ [0]).
      { unfold b3. rewrite skipn_put by lia. rewrite S2. reflexivity. }
      destruct (fs_tail b3 (x2 - N.to_nat nf - 1) q numsep qd _ size Hqd L3 ltac:(lia) ltac:(lia) S3)
        as (b' & ok & E & Lb & Hok & Ht).
      fold q. rewrite E.
      exists b', ok, k, (numeral_text numsep qd ++ (decsep :: map glyph fd) ++ suffix).
      split; [reflexivity|]. split; [auto|]. split; [exact Hk|]. split.
      { exists qd, fd. fold nf U q v. repeat split; try apply Hqd; auto.
        destruct (N.eqb_spec nf 0); [lia|]. reflexivity. }
      rewrite !app_length. cbn [length]. rewrite map_length, Lf. split.
      * rewrite Hok. split; intros; [split|]; lia.
      * intros Ho. destruct (Ht Ho) as (rest & ->). exists rest.
        now repeat (rewrite <- app_assoc; cbn [app]).
Qed.

Lemma shown_exact num k nf :
  num mod unit_size k * 10 ^ nf < W64 ->
  ((num mod unit_size k) * 10 ^ nf) mod W64 / unit_size k = true_frac num k nf.
Proof. intros H. unfold true_frac. now rewrite N.mod_small. Qed.

(** Enough room in 64 bits for each unit. *)
Definition frac_limit (k : N) : N := nth (N.to_nat k) [19;16;13;10;7;4;1] 0.

Lemma frac_limit_ok num k nf :
  k <= 6 -> nf <= frac_limit k -> num mod unit_size k * 10 ^ nf < W64.
Proof.
  intros Hk Hnf.
  assert (H : unit_size k * 10 ^ frac_limit k <= W64).
  { destruct (le6_cases k Hk) as [->|[->|[->|[->|[->|[->| ->]]]]]]; vm_compute; discriminate. }
  eapply N.lt_le_trans; [|exact H].
  assert (0 < 10 ^ nf) by (apply N.neq_0_lt_0, N.pow_nonzero; lia).
  assert (10 ^ nf <= 10 ^ frac_limit k) by (apply N.pow_le_mono_r; lia).
  assert (num mod unit_size k < unit_size k) by (apply N.mod_lt; pose proof (unit_size_pos k); lia).
  nia.
Qed.

Lemma ToFilesizeU_correct buf num numfrac numsep decsep unitsep unit :
  num < W64 ->
  exists b' ok k text,
    ToFilesizeU buf num numfrac numsep decsep unitsep unit = Ok (b', ok) /\
    length b' = length buf /\
    is_unit (negb (numfrac =? 0)) num k /\
    ((num mod unit_size k) * 10 ^ (shown_frac k numfrac) < W64 ->
     size_text k (shown_frac k numfrac) (num / unit_size k)
      (true_frac num k (shown_frac k numfrac)) numsep decsep unitsep unit text) /\
    (ok = true <-> (5 + length unit <= length buf)%nat /\ (length text + 1 <= length buf)%nat) /\
    (ok = true -> exists rest, b' = text ++ 0 :: rest).
Proof.
  intros H. destruct (ToFilesizeU_total buf num numfrac numsep decsep unitsep unit H)
    as (b' & ok & k & text & E & L & Hk & Ht & Hok & Hr).
  exists b', ok, k, text. split; auto. split; auto. split; auto. split; auto.
  intros Hs. rewrite <- shown_exact by exact Hs. exact Ht.
Qed.

Lemma ToFilesizeU_limit buf num numfrac numsep decsep unitsep unit :
  num < W64 ->
  exists b' ok k text,
    ToFilesizeU buf num numfrac numsep decsep unitsep unit = Ok (b', ok) /\
    is_unit (negb (numfrac =? 0)) num k /\
    (numfrac <= frac_limit k ->
     size_text k (shown_frac k numfrac) (num / unit_size k)
      (true_frac num k (shown_frac k numfrac)) numsep decsep unitsep unit text) /\
    (ok = true -> exists rest, b' = text ++ 0 :: rest).
Proof.
  intros H. destruct (ToFilesizeU_correct buf num numfrac numsep decsep unitsep unit H)
    as (b' & ok & k & text & E & L & Hk & Ht & Hok & Hr).
  exists b', ok, k, text. split; auto. split; auto. split; auto.
  intros Hs. apply Ht. apply frac_limit_ok; [apply Hk|].
  unfold shown_frac. destruct (k <? 2); lia.
Qed.

Lemma ToFilesizeU_wrong :
  exists b', ToFilesizeU (repeat 0 16) 1729382256910270464 2 0 46 32 [98] = Ok (b', true) /\
  forall k text rest,
    is_unit true 1729382256910270464 k ->
    size_text k 2 (1729382256910270464 / unit_size k) (true_frac 1729382256910270464 k 2) 0 46 32 [98] text ->
    b' <> text ++ 0 :: rest.
Proof.
  eexists. split; [vm_compute; reflexivity|].
  intros k text rest Hk Ht.
  assert (k = 6) as ->. { eapply is_unit_unique; [exact Hk|]. unfold is_unit. vm_compute. intuition congruence. }
  destruct Ht as (qd & fd & Hq & (Lf & Ff & Vf) & ->).
  assert (qd = [1]) as ->.
  { eapply (numeral_unique 10); [lia|exact Hq|].
    repeat split; try discriminate. repeat constructor. }
  destruct fd as [|a [|b [|c fd]]]; try discriminate.
  change (true_frac 1729382256910270464 6 2) with 50 in Vf.
  inversion Ff as [|? ? Ha Ff' Ea]; subst. inversion Ff' as [|? ? Hb _ Eb]; subst.
  unfold value in Vf. cbn [fold_left] in Vf.
  assert (a = 5 /\ b = 0) as [-> ->] by lia.
  intros E. vm_compute in E. discriminate.
Qed.

Lemma tostring_plain (buf : bytes) (num radix : N) :
  num < W64 ->
  exists b' ok, ToStringU buf num 0 radix = Ok (b', ok) /\ length b' = length buf /\
  (ok = true <->
     2 <= radix <= 36 /\ exists nd, is_numeral radix num nd /\ (length nd + 1 <= length buf)%nat) /\
  (ok = true -> forall nd, is_numeral radix num nd -> exists rest, b' = map glyph nd ++ 0 :: rest).
Proof.
  intros _.
  destruct (ToStringU_total buf num 0 radix) as (b' & ok & E & L & Hok & Ht).
  exists b', ok. split; [exact E|]. split; [exact L|].
  split; [|exact Ht]. rewrite Hok. unfold numeral_text. change (0 =? 0) with true. cbv iota.
  setoid_rewrite map_length. reflexivity.
Qed.

Lemma numeral_exists_unique r n : 2 <= r -> exists! ds, is_numeral r n ds.
Proof.
  intros Hr. destruct (numeral_exists r n Hr) as [ds H]. exists ds. split; [exact H|].
  intros ds' H'. exact (numeral_unique r n ds ds' Hr H H').
Qed.

Lemma tostring_sep (buf : bytes) (num sep radix : N) :
  num < W64 -> sep <> 0 ->
  exists b' ok, ToStringU buf num sep radix = Ok (b', ok) /\ length b' = length buf /\
  (ok = true <->
     2 <= radix <= 36 /\ exists nd, is_numeral radix num nd /\
        (length nd + (length nd - 1) / 3 + 1 <= length buf)%nat) /\
  (ok = true -> forall nd, is_numeral radix num nd ->
     exists rest, b' = group3 sep (map glyph nd) ++ 0 :: rest).
Proof.
  intros _ Hs.
  destruct (ToStringU_total buf num sep radix) as (b' & ok & E & L & Hok & Ht).
  exists b', ok. split; [exact E|]. split; [exact L|].
  unfold numeral_text in *. rewrite (proj2 (N.eqb_neq sep 0) Hs) in *.
  split; [|exact Ht]. rewrite Hok.
  setoid_rewrite group3_length. setoid_rewrite map_length. reflexivity.
Qed.

Lemma int_min_refuted :
  exists num : Z, (- 2^63 <= num < 2^63)%Z /\
  forall buf sep radix, (2 <= length buf)%nat -> ToStringI buf num sep radix = UB.
Proof.
  exists (- 2^63)%Z. split; [lia|]. intros buf sep radix H.
  exact (ToStringI_min_ub buf sep radix H).
Qed.

Lemma filesize_wrap_refuted :
  exists num, num < W64 /\
  exists b', ToFilesizeU (repeat 0 16) num 2 0 46 32 [98] = Ok (b', true) /\
  forall k text rest,
    is_unit true num k ->
    size_text k 2 (num / unit_size k) (true_frac num k 2) 0 46 32 [98] text ->
    b' <> text ++ 0 :: rest.
Proof. exists 1729382256910270464. split; [reflexivity|]. exact ToFilesizeU_wrong. Qed.
