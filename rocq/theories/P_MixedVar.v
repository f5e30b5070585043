(** Proofs about the model of StaticMixedVar / UTF8MixedVar. *)
From Verif Require Import Base S_Numeral M_ConvertInt P_ConvertInt S_Utf8 M_Utf8 P_Utf8 M_MixedVar S_MixedVar.
Open Scope N_scope.

(** One operation of the specification, performed by the model. *)
Definition exec (o : op) (v : var) : res (var * bool) :=
  let yes (r : res var) := let* v' := r in Ok (v', true) in
  match o with
  | OSetStr s rest => yes (SetStr v (s ++ 0 :: rest))
  | OSetData d rest => yes (SetData v (d ++ rest) (length d))
  | OPrependStr s rest => yes (PrependStr v (s ++ 0 :: rest))
  | OPrependData d rest => yes (PrependData v (d ++ rest) (length d))
  | OPrependInt z r tmp => yes (PrependInt v z r tmp)
  | OPrependUInt n r tmp => yes (PrependUInt v n r tmp)
  | OAppendStr s rest => yes (AppendStr v (s ++ 0 :: rest))
  | OAppendData d rest => yes (AppendData v (d ++ rest) (length d))
  | OAppendInt z r tmp => yes (AppendInt v z r tmp)
  | OAppendUInt n r tmp => yes (AppendUInt v n r tmp)
  | OAppendChar c => yes (AppendChar v c)
  | OAppendMissingChar c => yes (AppendMissingChar v c)
  | ORemoveTrailingChar c => RemoveTrailingChar v c
  | OSetSize k => yes (SetSize v k)
  end.

Fixpoint run (p : list op) (v : var) : res (var * list bool) :=
  match p with
  | [] => Ok (v, [])
  | o :: p' =>
      let* (v1, a) := exec o v in
      let* (v2, l) := run p' v1 in
      Ok (v2, a :: l)
  end.

(** The object holds the text [t] in a buffer of [size] bytes; [x] is the byte after it. *)
Definition holds (size : nat) (v : var) (t : bytes) (x : N) : Prop :=
  exists tl, v = Var (t ++ x :: tl) (length t) /\ length (t ++ x :: tl) = size.

Lemma holds_len size v t x : holds size v t x -> (length t <= size - 1)%nat /\ (1 <= size)%nat.
Proof. intros (tl & -> & E). rewrite app_length in E. cbn in E. lia. Qed.


Lemma split_nth (b : bytes) n : (n < length b)%nat -> firstn n b ++ nth n b 0 :: skipn (S n) b = b.
Proof.
  revert n. induction b as [|c b IH]; intros [|n] H; cbn in *; try lia; auto.
  f_equal. apply IH. lia.
Qed.

Lemma holds_any b n : (n < length b)%nat -> holds (length b) (Var b n) (firstn n b) (nth n b 0).
Proof.
  intros H. exists (skipn (S n) b). rewrite split_nth by auto. split; auto.
  f_equal. rewrite firstn_length. lia.
Qed.

Lemma wr_mid (t : bytes) x tl c : wr (t ++ x :: tl) (length t) c = Ok (t ++ c :: tl).
Proof.
  rewrite wr_in by (rewrite app_length; cbn; lia).
  rewrite upd_app_r by lia. rewrite Nat.sub_diag. reflexivity.
Qed.

Lemma terminate_spec size v t x : holds size v t x ->
  exists v', terminate v = Ok v' /\ holds size v' t 0.
Proof.
  intros (tl & -> & E). unfold terminate. cbn [str pos]. rewrite wr_mid. cbn [bind].
  eexists. split; [reflexivity|]. exists tl. split; auto.
  rewrite app_length in *. cbn in *. lia.
Qed.

(** Writing one character at the end, when there is room. *)
Lemma put_spec size v t x c : holds size v t x -> (length t < size - 1)%nat ->
  exists b x', wr (str v) (pos v) c = Ok b /\ holds size (Var b (S (pos v))) (t ++ [c]) x'.
Proof.
  intros (tl & -> & E) L. cbn [str pos]. rewrite wr_mid.
  rewrite app_length in E. cbn in E. destruct tl as [|y tl]; [cbn in E; lia|].
  exists (t ++ c :: y :: tl), y. split; auto. exists tl.
  rewrite <- app_assoc. cbn. split; [f_equal; rewrite app_length; cbn; lia|].
  rewrite app_length. cbn in *. lia.
Qed.

Lemma copy_str_spec size : forall s rest v t x,
  holds size v t x -> Forall (fun c => c <> 0) s ->
  exists v' x', copy_str (size - 1 - length t) (s ++ 0 :: rest) v = Ok v' /\
    holds size v' (appended size t s) x'.
Proof.
  unfold appended. induction s as [|c s IH]; intros rest v t x H F.
  - exists v, x. rewrite firstn_nil, app_nil_r. split; auto.
    destruct (size - 1 - length t)%nat; cbn; auto.
  - destruct (size - 1 - length t)%nat as [|r] eqn:R.
    + exists v, x. cbn. rewrite app_nil_r. auto.
    + destruct (put_spec size v t x c H ltac:(lia)) as (b & x' & Ew & H').
      cbn [copy_str app]. rewrite (proj2 (N.eqb_neq c 0) (Forall_inv F)), Ew. cbn [bind].
      destruct (IH rest _ _ _ H' (Forall_inv_tail F)) as (v' & x2 & E2 & H2).
      assert (L : (size - 1 - length (t ++ [c]) = r)%nat) by (rewrite app_length; cbn; lia).
      rewrite L in *. exists v', x2. split; auto. cbn [firstn].
      rewrite <- app_assoc in H2. exact H2.
Qed.

Lemma copy_data_spec size : forall s rest v t x,
  holds size v t x ->
  exists v' x', copy_data (size - 1 - length t) (s ++ rest) (length s) v = Ok v' /\
    holds size v' (appended size t s) x'.
Proof.
  unfold appended. induction s as [|c s IH]; intros rest v t x H.
  - exists v, x. rewrite firstn_nil, app_nil_r. split; auto.
    destruct (size - 1 - length t)%nat; cbn; auto.
  - destruct (size - 1 - length t)%nat as [|r] eqn:R.
    + exists v, x. cbn. rewrite app_nil_r. auto.
    + destruct (put_spec size v t x c H ltac:(lia)) as (b & x' & Ew & H').
      cbn [copy_data app length]. rewrite Ew. cbn [bind].
      destruct (IH rest _ _ _ H') as (v' & x2 & E2 & H2).
      assert (L : (size - 1 - length (t ++ [c]) = r)%nat) by (rewrite app_length; cbn; lia).
      rewrite L in *. exists v', x2. split; auto. cbn [firstn].
      rewrite <- app_assoc in H2. exact H2.
Qed.

Lemma holds_str size v t x : holds size v t x -> length (str v) = size /\ pos v = length t.
Proof. intros (tl & -> & E). auto. Qed.

Lemma AppendStr_spec size v t x s rest : holds size v t x -> Forall (fun c => c <> 0) s ->
  exists v', AppendStr v (s ++ 0 :: rest) = Ok v' /\ holds size v' (appended size t s) 0.
Proof.
  intros H F. destruct (holds_str _ _ _ _ H) as [El Ep]. unfold AppendStr. rewrite El, Ep.
  destruct (copy_str_spec size s rest v t x H F) as (v1 & x1 & E1 & H1). rewrite E1. cbn [bind].
  exact (terminate_spec _ _ _ _ H1).
Qed.

Lemma AppendData_spec size v t x s rest : holds size v t x ->
  exists v', AppendData v (s ++ rest) (length s) = Ok v' /\ holds size v' (appended size t s) 0.
Proof.
  intros H. destruct (holds_str _ _ _ _ H) as [El Ep]. unfold AppendData. rewrite El, Ep.
  destruct (copy_data_spec size s rest v t x H) as (v1 & x1 & E1 & H1). rewrite E1. cbn [bind].
  exact (terminate_spec _ _ _ _ H1).
Qed.

Lemma holds_reset size v t x : holds size v t x -> exists x', holds size (Var (str v) 0) [] x'.
Proof.
  intros H. pose proof (holds_len _ _ _ _ H). destruct (holds_str _ _ _ _ H) as [El Ep].
  exists (nth 0 (str v) 0). rewrite <- El. apply (holds_any (str v) 0). lia.
Qed.

Lemma appended_nil size s : appended size [] s = firstn (size - 1) s.
Proof. unfold appended. cbn [app length]. now rewrite Nat.sub_0_r. Qed.

Lemma SetStr_spec size v t x s rest : holds size v t x -> Forall (fun c => c <> 0) s ->
  exists v', SetStr v (s ++ 0 :: rest) = Ok v' /\ holds size v' (firstn (size - 1) s) 0.
Proof.
  intros H F. destruct (holds_str _ _ _ _ H) as [El Ep]. unfold SetStr. rewrite El.
  destruct (holds_reset _ _ _ _ H) as (x' & H').
  destruct (copy_str_spec size s rest _ [] x' H' F) as (v1 & x1 & E1 & H1).
  cbn [length] in E1. rewrite Nat.sub_0_r in E1. rewrite E1. cbn [bind].
  rewrite <- appended_nil. exact (terminate_spec _ _ _ _ H1).
Qed.

Lemma SetData_spec size v t x s rest : holds size v t x ->
  exists v', SetData v (s ++ rest) (length s) = Ok v' /\ holds size v' (firstn (size - 1) s) 0.
Proof.
  intros H. destruct (holds_str _ _ _ _ H) as [El Ep]. unfold SetData. rewrite El.
  destruct (holds_reset _ _ _ _ H) as (x' & H').
  destruct (copy_data_spec size s rest _ [] x' H') as (v1 & x1 & E1 & H1).
  cbn [length] in E1. rewrite Nat.sub_0_r in E1. rewrite E1. cbn [bind].
  rewrite <- appended_nil. exact (terminate_spec _ _ _ _ H1).
Qed.

Lemma PrependData_spec size v t x s rest : holds size v t x ->
  exists v', PrependData v (s ++ rest) (length s) = Ok v' /\ holds size v' (prepended size t s) x.
Proof.
  intros H. destruct (holds_str _ _ _ _ H) as [El Ep]. unfold PrependData, prepended. rewrite El, Ep.
  destruct (Nat.ltb_spec (length t + length s) (size - 1)) as [L|L]; [|eauto].
  destruct H as (tl & -> & E). cbn [str pos] in *.
  rewrite app_length in E. cbn in E. unfold memmove, slice.
  rewrite (proj2 (Nat.leb_le _ _)) by (rewrite app_length; cbn; lia). cbn [bind skipn].
  assert (F1 : firstn (length t + 1) (t ++ x :: tl) = t ++ [x]).
  { rewrite firstn_app. rewrite firstn_all2 by lia. f_equal.
    replace (length t + 1 - length t)%nat with 1%nat by lia. reflexivity. }
  rewrite F1. rewrite (blit_in _ (length s) (t ++ [x])) by (rewrite !app_length; cbn; lia).
  cbn [bind]. rewrite (proj2 (Nat.leb_le _ _)) by (rewrite app_length; lia). cbn [bind].
  assert (F2 : firstn (length s) (s ++ rest) = s).
  { rewrite firstn_app, firstn_all, Nat.sub_diag, firstn_O. apply app_nil_r. }
  rewrite F2.
  set (B := t ++ x :: tl) in *.
  assert (LB : length B = size) by (unfold B; rewrite app_length; cbn; lia).
  rewrite (blit_in _ 0 s).
  2:{ repeat rewrite ?app_length, ?firstn_length, ?skipn_length. cbn [length]. lia. }
  cbn [bind firstn app]. eexists. split; [reflexivity|].
  assert (Lf : length (firstn (length s) B) = length s) by (rewrite firstn_length; lia).
  rewrite skipn_app. replace (0 + length s)%nat with (length s) by lia.
  rewrite (skipn_all2 (firstn (length s) B)) by lia. rewrite Lf, Nat.sub_diag. cbn [app skipn].
  exists (skipn (length s + length (t ++ [x])) B). split.
  - f_equal. 2:{ rewrite app_length. lia. }
    rewrite <- !app_assoc. reflexivity.
  - repeat (rewrite ?app_length, ?skipn_length; cbn [length]). lia.
Qed.

Lemma cstr_app s rest : Forall (fun c => c <> 0) s -> cstr (s ++ 0 :: rest) = Ok s.
Proof.
  induction s as [|c s IH]; intros F; [reflexivity|]. cbn.
  rewrite (proj2 (N.eqb_neq c 0) (Forall_inv F)). rewrite IH by exact (Forall_inv_tail F). reflexivity.
Qed.

Lemma PrependStr_spec size v t x s rest : holds size v t x -> Forall (fun c => c <> 0) s ->
  exists v', PrependStr v (s ++ 0 :: rest) = Ok v' /\ holds size v' (prepended size t s) x.
Proof.
  intros H F. unfold PrependStr. rewrite cstr_app by auto. cbn [bind].
  exact (PrependData_spec size v t x s (0 :: rest) H).
Qed.

Lemma AppendChar_spec size v t x c : holds size v t x ->
  exists v' x', AppendChar v c = Ok v' /\ holds size v' (appended size t [c]) x' /\ (x = 0 -> x' = 0).
Proof.
  intros H. destruct (holds_str _ _ _ _ H) as [El Ep]. unfold AppendChar, appended. rewrite El, Ep.
  destruct (Nat.ltb_spec (length t) (size - 1)) as [L|L].
  - destruct (put_spec size v t x c H L) as (b & x' & Ew & H'). rewrite Ep in *. rewrite Ew. cbn [bind].
    destruct (terminate_spec _ _ _ _ H') as (v' & E' & H2). exists v', 0. split; auto. split; auto.
    rewrite firstn_all2 by (cbn; lia). exact H2.
  - exists v, x. replace (size - 1 - length t)%nat with 0%nat by lia. cbn. rewrite app_nil_r. auto.
Qed.

Lemma ends_spec size v t x c : holds size v t x ->
  (exists t0, t = t0 ++ [c]) /\ ends_otherwise v c = Ok false \/
  (forall t0, t <> t0 ++ [c]) /\ ends_otherwise v c = Ok true.
Proof.
  intros (tl & -> & E). unfold ends_otherwise. cbn [pos str].
  destruct t as [|d t _] using rev_ind.
  - right. split; [intros t0 E0; destruct t0; discriminate|reflexivity].
  - rewrite app_length. cbn [length]. rewrite Nat.add_1_r.
    rewrite <- app_assoc. cbn [app]. unfold rd. rewrite nth_error_app2, Nat.sub_diag by lia. cbn [nth_error bind].
    destruct (N.eqb_spec d c) as [->|Hn].
    + left. split; eauto.
    + right. split; auto. intros t0 E0. apply app_inj_tail in E0 as [_ E0]. congruence.
Qed.

Lemma shrink_spec size v t x c : holds size v (t ++ [c]) x ->
  holds size (Var (str v) (pos v - 1)) t c.
Proof.
  intros (tl & -> & E). exists (x :: tl). cbn [str pos]. rewrite <- app_assoc in *. cbn [app] in *.
  split; auto. f_equal. rewrite app_length. cbn. lia.
Qed.

(** ** Integers *)
Lemma digit_byte z : z < 36 -> digit_char z mod 256 = digit_char z.
Proof. intros H. unfold digit_char. destruct (N.ltb_spec 9 z); apply N.mod_small; lia. Qed.

Lemma its_ts : forall x f buf y num radix, 2 <= radix <= 36 -> (x < f)%nat ->
  its_loop x buf num radix = ts_loop f buf x y num 0 radix.
Proof.
  induction x as [|x IH]; intros f buf y num radix Hr Hf.
  - destruct f as [|f]; [lia|]. cbn [its_loop ts_loop]. reflexivity.
  - destruct f as [|f]; [lia|]. cbn [its_loop ts_loop]. destruct (num =? 0); auto.
    rewrite (proj2 (N.eqb_neq radix 0)) by lia. cbn [N.eqb negb andb].
    assert (num mod radix < radix) by (apply N.mod_lt; lia).
    rewrite digit_byte by lia.
    destruct (wr buf x (digit_char (num mod radix))); cbn [bind]; auto. apply IH; auto. lia.
Qed.

Lemma IntToStringU_eq buf num radix : 2 <= radix <= 36 ->
  IntToStringU buf num radix = ToStringU buf num 0 radix.
Proof.
  intros Hr. unfold IntToStringU, ToStringU.
  rewrite (proj2 (N.ltb_ge radix 2)) by lia. rewrite (proj2 (N.ltb_ge 36 radix)) by lia.
  rewrite !orb_false_r. destruct (Nat.ltb_spec (length buf) 2); auto.
  destruct (wr buf (length buf - 1) 0) as [b1| |]; cbn [bind]; auto.
  destruct (N.eqb_spec num 0).
  - destruct (wr b1 (length buf - 2) 48); reflexivity.
  - rewrite (its_ts _ (S (length buf)) b1 0 num radix) by (auto; lia).
    destruct (ts_loop (S (length buf)) b1 (length buf - 1) 0 num 0 radix) as [[b2 [x|]]| |]; reflexivity.
Qed.

Lemma IntToStringI_eq buf num radix : 2 <= radix <= 36 ->
  IntToStringI buf num radix = ToStringI buf num 0 radix.
Proof.
  intros Hr. unfold IntToStringI, ToStringI. rewrite IntToStringU_eq by auto.
  destruct (0 <=? num)%Z; auto. destruct (length buf <? 2)%nat; auto.
  destruct (wr buf 0 45); cbn [bind]; auto. destruct (neg64 num); cbn [bind]; auto.
  rewrite IntToStringU_eq by auto. destruct (ToStringU (skipn 1 a) a0 0 radix) as [[b ok]| |]; reflexivity.
Qed.

Lemma glyph_nz d : d < 36 -> glyph d <> 0.
Proof.
  intros H. assert (A : forallb (fun c => negb (c =? 0)) glyphs = true) by reflexivity.
  rewrite forallb_forall in A. unfold glyph.
  assert (In (nth (N.to_nat d) glyphs 0) glyphs) as I by (apply nth_In; cbn; lia).
  apply A in I. destruct (N.eqb_spec (nth (N.to_nat d) glyphs 0) 0); [discriminate|auto].
Qed.

Lemma written_nz z r w : 2 <= r <= 36 -> written z r w -> Forall (fun c => c <> 0) w.
Proof.
  intros Hr (ds & (Hne & Hf & _) & ->). apply Forall_app. split.
  - destruct (z <? 0)%Z; repeat constructor. discriminate.
  - apply Forall_map. eapply Forall_impl; [|exact Hf]. intros d Hd. cbn in *. apply glyph_nz. lia.
Qed.

Lemma text0 ds : numeral_text 0 ds = map glyph ds.
Proof. reflexivity. Qed.

Lemma IntToStringI_spec tmp z r : 2 <= r <= 36 -> (- 2^63 < z)%Z -> length tmp = 44%nat ->
  exists b ok w, IntToStringI tmp z r = Ok (b, ok) /\ written z r w /\
    (ok = true /\ (length w <= 43)%nat /\ (exists rest, b = w ++ 0 :: rest) \/
     ok = false /\ (43 < length w)%nat).
Proof.
  intros Hr Hz Ht. rewrite IntToStringI_eq by auto.
  destruct (ToStringI_total tmp z 0 r Hz) as (b & ok & E & El & Hok & Htx).
  destruct (numeral_exists r (Z.to_N (Z.abs z)) ltac:(lia)) as (ds & Hds).
  exists b, ok, ((if (z <? 0)%Z then [45] else []) ++ map glyph ds).
  split; auto. split; [exists ds; auto|]. setoid_rewrite text0 in Hok. setoid_rewrite text0 in Htx.
  assert (LW : Z.of_nat (length ((if (z <? 0)%Z then [45] else []) ++ map glyph ds)) =
    ((if (z <? 0)%Z then 1 else 0) + Z.of_nat (length (map glyph ds)))%Z).
  { rewrite app_length. destruct (z <? 0)%Z; cbn [length]; lia. }
  destruct ok.
  - left. split; auto. destruct (proj1 Hok eq_refl) as (_ & nd & Hnd & L).
    rewrite (numeral_unique r _ _ _ ltac:(lia) Hnd Hds) in L. split; [lia|].
    destruct (Htx eq_refl ds Hds) as (rest & ->). exists rest. now rewrite <- app_assoc.
  - right. split; auto. destruct (Nat.ltb_spec 43 (length ((if (z <? 0)%Z then [45] else []) ++ map glyph ds))); auto.
    exfalso. assert (false = true); [|discriminate]. apply Hok. split; auto. exists ds. split; auto. lia.
Qed.

Lemma IntToStringU_I tmp n r : IntToStringU tmp n r = IntToStringI tmp (Z.of_N n) r.
Proof. unfold IntToStringI. rewrite (proj2 (Z.leb_le _ _)) by lia. now rewrite N2Z.id. Qed.

(** ** One operation *)
Lemma exec_spec size o v t x : holds size v t x -> valid o ->
  exists v' a t' x', exec o v = Ok (v', a) /\ effect size t o t' a /\ holds size v' t' x' /\
    (x = 0 \/ establishes size o -> x' = 0).
Proof.
  intros H V. pose proof (holds_len _ _ _ _ H) as [HL HS]. destruct (holds_str _ _ _ _ H) as [El Ep].
  destruct o as [s rest|d rest|s rest|d rest|z r tmp|n r tmp|s rest|d rest|z r tmp|n r tmp|c|c|c|k];
    cbn [exec valid establishes] in *.
  - destruct (SetStr_spec size v t x s rest H V) as (v' & E & H'). rewrite E. cbn [bind].
    exists v', true, (firstn (size - 1) s), 0. repeat split; auto. constructor.
  - destruct (SetData_spec size v t x d rest H) as (v' & E & H'). rewrite E. cbn [bind].
    exists v', true, (firstn (size - 1) d), 0. repeat split; auto. constructor.
  - destruct (PrependStr_spec size v t x s rest H V) as (v' & E & H'). rewrite E. cbn [bind].
    exists v', true, (prepended size t s), x. repeat split; auto; [constructor|tauto].
  - destruct (PrependData_spec size v t x d rest H) as (v' & E & H'). rewrite E. cbn [bind].
    exists v', true, (prepended size t d), x. repeat split; auto; [constructor|tauto].
  - destruct V as (Vz & Vr & Vt). destruct (IntToStringI_spec tmp z r Vr ltac:(lia) Vt) as (b & ok & w & E & Hw & HC).
    unfold PrependInt. rewrite E. cbn [bind]. destruct HC as [(-> & L & rest & ->)|(-> & L)].
    + destruct (PrependStr_spec size v t x w rest H (written_nz _ _ _ Vr Hw)) as (v' & E' & H'). rewrite E'. cbn [bind].
      exists v', true, (prepended size t w), x. repeat split; auto; [now constructor|tauto].
    + exists v, true, t, x. repeat split; auto; [now apply e_pre_int_long with w|tauto].
  - destruct V as (Vz & Vr & Vt). destruct (IntToStringI_spec tmp (Z.of_N n) r Vr ltac:(lia) Vt) as (b & ok & w & E & Hw & HC).
    unfold PrependUInt. rewrite IntToStringU_I, E. cbn [bind]. destruct HC as [(-> & L & rest & ->)|(-> & L)].
    + destruct (PrependStr_spec size v t x w rest H (written_nz _ _ _ Vr Hw)) as (v' & E' & H'). rewrite E'. cbn [bind].
      exists v', true, (prepended size t w), x. repeat split; auto; [now constructor|tauto].
    + exists v, true, t, x. repeat split; auto; [now apply e_pre_uint_long with w|tauto].
  - destruct (AppendStr_spec size v t x s rest H V) as (v' & E & H'). rewrite E. cbn [bind].
    exists v', true, (appended size t s), 0. repeat split; auto. constructor.
  - destruct (AppendData_spec size v t x d rest H) as (v' & E & H'). rewrite E. cbn [bind].
    exists v', true, (appended size t d), 0. repeat split; auto. constructor.
  - destruct V as (Vz & Vr & Vt). destruct (IntToStringI_spec tmp z r Vr ltac:(lia) Vt) as (b & ok & w & E & Hw & HC).
    unfold AppendInt. rewrite E. cbn [bind]. destruct HC as [(-> & L & rest & ->)|(-> & L)].
    + destruct (AppendStr_spec size v t x w rest H (written_nz _ _ _ Vr Hw)) as (v' & E' & H'). rewrite E'. cbn [bind].
      exists v', true, (appended size t w), 0. repeat split; auto; now constructor.
    + exists v, true, t, x. repeat split; auto; [now apply e_app_int_long with w|tauto].
  - destruct V as (Vz & Vr & Vt). destruct (IntToStringI_spec tmp (Z.of_N n) r Vr ltac:(lia) Vt) as (b & ok & w & E & Hw & HC).
    unfold AppendUInt. rewrite IntToStringU_I, E. cbn [bind]. destruct HC as [(-> & L & rest & ->)|(-> & L)].
    + destruct (AppendStr_spec size v t x w rest H (written_nz _ _ _ Vr Hw)) as (v' & E' & H'). rewrite E'. cbn [bind].
      exists v', true, (appended size t w), 0. repeat split; auto; now constructor.
    + exists v, true, t, x. repeat split; auto; [now apply e_app_uint_long with w|tauto].
  - destruct (AppendChar_spec size v t x c H) as (v' & x' & E & H' & Hx). rewrite E. cbn [bind].
    exists v', true, (appended size t [c]), x'. repeat split; auto; [constructor|tauto].
  - unfold AppendMissingChar. destruct (ends_spec size v t x c H) as [[(t0 & E0) E]|[E0 E]]; rewrite E; cbn [bind].
    + exists v, true, t, x. repeat split; auto; [now apply e_missing_there with t0|tauto].
    + destruct (AppendChar_spec size v t x c H) as (v' & x' & E' & H' & Hx). rewrite E'. cbn [bind].
      exists v', true, (appended size t [c]), x'. repeat split; auto; [now constructor|tauto].
  - unfold RemoveTrailingChar. destruct (ends_spec size v t x c H) as [[(t0 & ->) E]|[E0 E]]; rewrite E; cbn [bind].
    + destruct (terminate_spec size _ _ _ (shrink_spec _ _ _ _ _ H)) as (v' & E' & H'). rewrite E'. cbn [bind].
      exists v', true, t0, 0. repeat split; auto; now constructor.
    + exists v, false, t, x. repeat split; auto; [now constructor|tauto].
  - unfold SetSize. rewrite El. destruct (Nat.ltb_spec k size) as [L|L]; cbn [bind].
    + pose proof (holds_any (str v) k ltac:(lia)) as Hk. rewrite El in Hk.
      destruct (terminate_spec size _ _ _ Hk) as (v' & E' & H'). rewrite E'. cbn [bind].
      exists v', true, (firstn k (str v)), 0. repeat split; auto.
      destruct H as (tl & -> & E). cbn [str pos] in *.
      destruct (Nat.le_gt_cases k (length t)) as [Lk|Lk].
      * rewrite firstn_app. replace (k - length t)%nat with 0%nat by lia. cbn [firstn]. rewrite app_nil_r.
        now constructor.
      * rewrite firstn_app, (firstn_all2 t) by lia. apply e_extend; auto.
        rewrite firstn_length. rewrite app_length in E. lia.
    + exists v, true, t, x. repeat split; auto; [now constructor|]. intros [Hx|Hx]; [auto|lia].
Qed.

Lemma run_spec size p : forall v t x, holds size v t x -> Forall valid p ->
  exists v' l t' x', run p v = Ok (v', l) /\ history size t p t' l /\ holds size v' t' x' /\
    (x = 0 \/ Exists (establishes size) p -> x' = 0).
Proof.
  induction p as [|o p IH]; intros v t x H V.
  - exists v, [], t, x. repeat split; auto; [constructor|]. intros [Hx|Hx]; auto. inversion Hx.
  - destruct (exec_spec size o v t x H (Forall_inv V)) as (v1 & a & t1 & x1 & E1 & Ef & H1 & T1).
    destruct (IH v1 t1 x1 H1 (Forall_inv_tail V)) as (v2 & l & t2 & x2 & E2 & Hh & H2 & T2).
    exists v2, (a :: l), t2, x2. cbn [run]. rewrite E1. cbn [bind]. rewrite E2. cbn [bind].
    repeat split; auto. { econstructor; eauto. }
    intros [Hx|Hx]; [tauto|]. inversion Hx; subst; tauto.
Qed.

(** The specification determines the text, except for what SetSize uncovers. *)
Lemma effect_fun size t o t1 a1 t2 a2 : valid o ->
  (forall k, o = OSetSize k -> (k <= length t \/ size <= k)%nat) ->
  effect size t o t1 a1 -> effect size t o t2 a2 -> t1 = t2 /\ a1 = a2.
Proof.
  intros V Hk. 
  assert (W : forall z r w w', 2 <= r <= 36 -> written z r w -> written z r w' -> w = w').
  { intros z r w w' Hr (ds & Hds & ->) (ds' & Hds' & ->).
    now rewrite (numeral_unique r _ _ _ ltac:(lia) Hds Hds'). }
  intros H1 H2. destruct H1; inversion H2; subst; cbn [valid] in V; auto;
    repeat match goal with
    | A : written ?z ?r ?w, B : written ?z ?r ?w' |- _ =>
        assert (w = w') by (apply (W z r); tauto); subst w'; clear B
    end; auto; try lia;
    try match goal with A : (forall t0, ?t <> t0 ++ [?c]), B : ?t = _ ++ [?c] |- _ => exfalso; exact (A _ B) end;
    try (exfalso; match goal with A : (forall t0, _ <> t0 ++ [_]) |- _ => eapply A; reflexivity end).
  all: try match goal with A : _ ++ [_] = _ ++ [_] |- _ => apply app_inj_tail in A as [-> _]; auto end.
  all: destruct (Hk _ eq_refl); try lia.
  all: repeat match goal with |- context [_ ++ ?j] => is_var j; assert (j = []) by (destruct j; cbn in *; auto; lia); subst j end.
  all: rewrite ?app_nil_r, ?firstn_all2 by lia; auto.
Qed.

(** ** UTF8MixedVar *)
Lemma settle_spec size b n : length b = size -> (1 <= size)%nat -> (n <= size)%nat ->
  exists v' t, settle (Var b n) = Ok v' /\ holds size v' t 0 /\ trimmed size (firstn n b) t.
Proof.
  intros El H1 Hn. unfold settle. cbn [pos str]. rewrite El.
  assert (Lf : length (firstn n b) = n) by (rewrite firstn_length; lia).
  assert (D : forall p, n = S p -> firstn n b = firstn p b ++ [nth p b 0]).
  { intros p ->. rewrite <- (split_nth b p) at 1 by lia. rewrite firstn_app.
    rewrite firstn_length. replace (S p - Nat.min p (length b))%nat with 1%nat by lia.
    rewrite firstn_all2 by (rewrite firstn_length; lia). reflexivity. }
  assert (Back : forall p, n = S p -> (n = size \/ nth p b 0 = 0) ->
     exists v' t, terminate (Var b p) = Ok v' /\ holds size v' t 0 /\ trimmed size (firstn n b) t).
  { intros p Ep Hc. pose proof (holds_any b p ltac:(lia)) as H. rewrite El in H.
    destruct (terminate_spec size _ _ _ H) as (v' & E' & H'). exists v', (firstn p b).
    split; auto. split; auto. left. rewrite (D p Ep) in *. rewrite removelast_last, last_last.
    split; auto. destruct Hc as [Hc|Hc]; [left; lia|auto]. }
  assert (Stay : (n < size)%nat -> last (firstn n b) 1 <> 0 ->
     exists v' t, terminate (Var b n) = Ok v' /\ holds size v' t 0 /\ trimmed size (firstn n b) t).
  { intros L Hl. pose proof (holds_any b n ltac:(lia)) as H. rewrite El in H.
    destruct (terminate_spec size _ _ _ H) as (v' & E' & H'). exists v', (firstn n b).
    split; auto. split; auto. right. repeat split; auto. lia. }
  destruct (Nat.eqb_spec n size) as [E|E]; cbn [bind].
  - destruct n as [|p]; [lia|]. replace (S p - 1)%nat with p by lia. apply Back; auto.
  - destruct n as [|p]; cbn [bind].
    + apply Stay; [lia|]. cbn. discriminate.
    + rewrite (rd_in b p 0) by lia. cbn [bind]. destruct (N.eqb_spec (nth p b 0) 0) as [Ez|Ez].
      * replace (S p - 1)%nat with p by lia. apply Back; auto.
      * apply Stay; [lia|]. rewrite (D p eq_refl), last_last. exact Ez.
Qed.

Lemma SetUTF8_spec size v t x src : holds size v t x ->
  exists v' o t', SetUTF8 v src = Ok v' /\ keeps enc8 (Some size) [] src o /\
    trimmed size o t' /\ holds size v' t' 0.
Proof.
  intros H. pose proof (holds_len _ _ _ _ H) as [HL HS]. destruct (holds_str _ _ _ _ H) as [El Ep].
  unfold SetUTF8. rewrite El.
  destruct (convert_spec Wd4 src src (Some (str v)) size) as (o & lp & E & K); [cbn; lia|reflexivity|].
  rewrite E. cbn [bind rep]. cbn [capof] in K. pose proof (keeps_cap _ _ _ _ _ K ltac:(cbn; lia)) as Lo.
  destruct (settle_spec size (o ++ skipn (length o) (str v)) (length o)) as (v' & t' & E' & H' & T); auto.
  { rewrite app_length, skipn_length. lia. }
  exists v', o, t'. split; auto. split; auto. split; auto.
  rewrite firstn_app, firstn_all, Nat.sub_diag, firstn_O, app_nil_r in T. exact T.
Qed.

Lemma AppendUTF8_spec size v t x src : holds size v t x ->
  let n := Nat.min (length src) (size - length t) in
  exists v' o t', AppendUTF8 v src = Ok v' /\ keeps enc8 (Some n) [] (firstn n src) o /\
    trimmed size (t ++ o) t' /\ holds size v' t' 0.
Proof.
  intros H n. pose proof (holds_len _ _ _ _ H) as [HL HS]. destruct (holds_str _ _ _ _ H) as [El Ep].
  unfold AppendUTF8. rewrite El, Ep. fold n.
  assert (Hn : (n <= size - length t)%nat) by (unfold n; lia). clearbody n.
  destruct (convert_spec Wd4 (firstn n src) (firstn n src) (Some (skipn (length t) (str v))) n) as (o & lp & E & K);
    [cbn; rewrite skipn_length; lia|reflexivity|].
  rewrite E. cbn [bind rep]. cbn [capof] in K. pose proof (keeps_cap _ _ _ _ _ K ltac:(cbn; lia)) as Lo.
  assert (Ef : firstn (length t) (str v) = t).
  { destruct H as (tl & -> & _). cbn [str]. rewrite firstn_app, firstn_all, Nat.sub_diag, firstn_O. apply app_nil_r. }
  rewrite Ef.
  destruct (settle_spec size (t ++ o ++ skipn (length o) (skipn (length t) (str v))) (length t + length o))
    as (v' & t' & E' & H' & T); auto.
  { rewrite !app_length, !skipn_length. lia. }
  { lia. }
  exists v', o, t'. split; auto. split; auto. split; auto.
  rewrite app_assoc, firstn_app in T. rewrite <- app_length, firstn_all, Nat.sub_diag, firstn_O, app_nil_r in T.
  exact T.
Qed.

Lemma last_app_ne (t o : bytes) d : o <> [] -> last (t ++ o) d = last o d.
Proof.
  destruct o as [|c o _] using rev_ind; [congruence|]. intros _. now rewrite app_assoc, !last_last.
Qed.

Lemma enc8_last c d : c <> 0 -> enc8 c <> [] /\ last (enc8 c) d <> 0.
Proof.
  intros H. unfold enc8. destruct (c <? 128); [|destruct (c <? 2048); [|destruct (c <? 65536)]];
    (split; [discriminate|]); cbn [last]; [auto|alia|alia|alia].
Qed.

Lemma text8_last cps d : Forall (fun c => c <> 0) cps -> cps <> [] -> last (text enc8 cps) d <> 0.
Proof.
  intros F Hn. destruct cps as [|c r _] using rev_ind; [congruence|].
  rewrite text_snoc. apply Forall_app in F as [_ F]. destruct (enc8_last c d (Forall_inv F)) as [A B].
  now rewrite last_app_ne.
Qed.

Lemma text_ascii cps : Forall (fun c => c < 128) cps -> text enc8 cps = cps.
Proof.
  induction cps as [|c r IH]; intros F; [reflexivity|].
  change (text enc8 (c :: r)) with (enc8 c ++ text enc8 r). rewrite IH by exact (Forall_inv_tail F).
  unfold enc8. rewrite (proj2 (N.ltb_lt c 128) (Forall_inv F)). reflexivity.
Qed.

Lemma ascii_good cps : Forall (fun c => c < 128) cps -> good_text cps.
Proof.
  intros F. split.
  - eapply Forall_impl; [|exact F]. intros c Hc. cbv beta in Hc. apply allowedb_spec. unfold allowedb.
    assert (P : forallb (fun i => negb (is_excluded (N.of_nat i))) (seq 0 128) = true) by reflexivity.
    rewrite forallb_forall in P. rewrite <- (N2Nat.id c) at 1. rewrite (P (N.to_nat c)) by (apply in_seq; lia).
    cbn [andb]. apply N.leb_le. lia.
  - destruct cps as [|c r]; auto. intros B. apply is_combining_spec in B.
    pose proof (Forall_inv F) as Hc. cbv beta in Hc. unfold is_combining in B. lia.
Qed.

Lemma keeps_whole cap cps : good_text cps -> (length (text enc8 cps) <= cap)%nat ->
  keeps enc8 (Some cap) [] cps (text enc8 cps).
Proof. intros [F G] L. apply (keeps_all enc8 (Some cap) enc8_len_pos cps []); auto. Qed.

Lemma SetUTF8_whole size v t x cps : holds size v t x -> good_text cps -> Forall (fun c => c <> 0) cps ->
  (length (text enc8 cps) < size)%nat ->
  exists v', SetUTF8 v cps = Ok v' /\ holds size v' (text enc8 cps) 0.
Proof.
  intros H G F L. destruct (SetUTF8_spec size v t x cps H) as (v' & o & t' & E & K & T & H').
  assert (o = text enc8 cps) as -> by (eapply keeps_fun; [exact K|]; apply keeps_whole; auto; lia).
  exists v'. split; auto. destruct T as [[[T|T] _]|(_ & _ & ->)]; [lia| |auto].
  exfalso. destruct cps as [|c r]; [cbn in T; discriminate|]. exact (text8_last (c :: r) 1 F ltac:(discriminate) T).
Qed.

Lemma AppendUTF8_ascii size v t x s : holds size v t x -> last t 1 <> 0 ->
  Forall (fun c => 0 < c < 128) s -> (length t + length s < size)%nat ->
  exists v', AppendUTF8 v s = Ok v' /\ holds size v' (t ++ s) 0.
Proof.
  intros H Ht F L. destruct (AppendUTF8_spec size v t x s H) as (v' & o & t' & E & K & T & H').
  replace (Nat.min (length s) (size - length t)) with (length s) in K by lia. rewrite firstn_all in K.
  assert (F1 : Forall (fun c => c < 128) s) by (eapply Forall_impl; [|exact F]; cbn; lia).
  assert (F0 : Forall (fun c => c <> 0) s) by (eapply Forall_impl; [|exact F]; cbn; lia).
  assert (o = s) as ->.
  { rewrite <- (text_ascii s F1) at 1. eapply keeps_fun; [exact K|]. apply keeps_whole.
    - now apply ascii_good.
    - rewrite text_ascii by auto. lia. }
  exists v'. split; auto. destruct T as [[[T|T] _]|(_ & _ & ->)]; [rewrite app_length in T; lia| |auto].
  exfalso. destruct s as [|c s]; [rewrite app_nil_r in T; auto|].
  rewrite last_app_ne in T by discriminate. rewrite <- (text_ascii (c :: s) F1) in T.
  exact (text8_last (c :: s) 1 F0 ltac:(discriminate) T).
Qed.

Lemma AppendUTF8_single_lost size v t x cp : holds size v t x -> last t 1 <> 0 -> 128 <= cp ->
  exists v', AppendUTF8 v [cp] = Ok v' /\ holds size v' t 0.
Proof.
  intros H Ht Hc. pose proof (holds_len _ _ _ _ H) as [HL HS].
  destruct (AppendUTF8_spec size v t x [cp] H) as (v' & o & t' & E & K & T & H').
  replace (Nat.min (length [cp]) (size - length t)) with 1%nat in K by (cbn [length]; lia). cbn [firstn] in K.
  assert (o = []) as ->.
  { inversion K as [|? ? ? ? A K'|? ? ? ? A K']; subst.
    - exfalso. destruct A as (_ & _ & A). cbn [fits length] in A. unfold enc8 in A.
      rewrite (proj2 (N.ltb_ge cp 128) Hc) in A.
      destruct (cp <? 2048); [|destruct (cp <? 65536)]; cbn in A; lia.
    - inversion K'. auto. }
  rewrite app_nil_r in T. exists v'. split; auto.
  destruct T as [[[T|T] _]|(_ & _ & ->)]; [lia|contradiction|auto].
Qed.
