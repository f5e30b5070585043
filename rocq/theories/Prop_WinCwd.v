(** C144: Dir::Getcwd on Windows delivers the current directory or fails. *)
From Verif Require Import Base S_Utf8 S_WinAppInfo S_WinPath M_Utf8 M_WinPath M_WinAppInfo M_WinCwd P_Utf8 P_MixedVar P_WinPath P_WinDir P_WinFile P_WinReal P_WinAppInfo Prop_WinPath Prop_WinAppInfo.
Open Scope N_scope.

(** The local arrays. *)
Definition arrays (gw : list N) (g : bytes) : Prop := length gw = CAP /\ length g = CAP.

Lemma form_len t r out : form t r out -> (length t <= length out)%nat.
Proof.
  intro F. destruct F; unfold p_unc, p_uni, p_vol; cbn [length app]; rewrite ?app_length; cbn [length]; lia.
Qed.

(** The wide name is read back. *)
Lemma wide_back cur gw : ~ In 0 cur -> length gw = CAP -> (length cur < CAP)%nat -> exists w, wr (sys_getcwd cur gw) (CAP - 1) 0 = Ok w /\ cstr w = Ok cur.
Proof.
  intros Z L H. unfold sys_getcwd. rewrite L, (proj2 (Nat.ltb_lt _ _)) by exact H.
  assert (Ll : length (cur ++ 0 :: skipn (S (length cur)) gw) = CAP) by (rewrite app_length; cbn [length]; rewrite skipn_length; lia).
  unfold wr. rewrite Ll, (proj2 (Nat.ltb_lt _ _)) by lia. eexists. split; [reflexivity|]. rewrite upd_app_r by lia.
  destruct (CAP - 1 - length cur)%nat as [|k] eqn:Q; cbn [upd]; apply cstr_at; exact Z.
Qed.

Definition body sgn vol (s : list N) (g b : bytes) : res (bytes * bool) :=
  let* (d, _) := to_buffer (s ++ [0]) g CAP in let* name := cstr d in WGetPlatformFilename sgn vol b name false.
Lemma getcwd_body sgn vol gw g cur b : arrays gw g -> cur <> [] -> ~ In 0 cur -> (length cur < CAP)%nat -> WGetcwd sgn vol gw g cur b = body sgn vol cur g b.
Proof.
  intros [L _] Hn Z H. unfold WGetcwd. destruct cur as [|c cur]; [congruence|]. destruct (wide_back (c :: cur) gw Z L H) as (w & E1 & E2). rewrite E1. cbn [bind]. rewrite E2. reflexivity.
Qed.

Lemma body_text sgn vol cps g b : good_text cps -> ~ In 0 cps -> length g = CAP -> (length (text enc8 cps) < CAP)%nat ->
  body sgn vol (text enc16 cps) g b = WGetPlatformFilename sgn vol b (text enc8 cps) false.
Proof.
  intros G Z L H. unfold body. rewrite exe_units.
  assert (GA : Forall allowed (cps ++ [0])) by (apply Forall_app; split; [apply G|constructor; [|constructor]; unfold allowed; cbn; lia]).
  destruct (to_buffer_spec (cps ++ [0]) g CAP GA) as (o & E1 & K); [lia|].
  assert (o = text enc8 cps ++ [0]) as ->.
  { eapply keeps_fun; [exact K|]. rewrite <- exe_bytes. apply (keeps_all enc8 (Some CAP) enc8_len_pos (cps ++ [0]) []); [exact GA| |].
    - intros _. destruct G as [_ G]. destruct cps; cbn [app]; [unfold combining; lia|exact G].
    - cbn [fits]. rewrite exe_bytes, app_length. cbn [length]. lia. }
  rewrite E1. cbn [bind]. unfold stored. rewrite <- app_assoc. cbn [app]. rewrite cstr_at; [reflexivity|]. intro X. apply (proj1 (Forall_forall _ _) (text8_nz cps Z) 0 X). reflexivity.
Qed.

Lemma text8_ctext cps : Forall allowed cps -> ~ In 0 cps -> Forall (fun c => 0 < c < 256) (text enc8 cps).
Proof.
  intros G Z. apply Forall_forall. intros x X. pose proof (proj1 (Forall_forall _ _) (text8_nz cps Z) x X) as X1. pose proof (proj1 (Forall_forall _ _) (text8_bytes cps G) x X) as X2. unfold isByte in X2. cbv beta in X1. lia.
Qed.

(** A directory that fits the arrays in both encodings is delivered as GetPlatformFilename writes it. *)
Theorem C144_exact : forall sgn vol gw g cps b out, arrays gw g -> good_text cps -> ~ In 0 cps -> cps <> [] ->
  (length (text enc8 cps) < CAP)%nat -> accepts sgn (text enc8 cps) out ->
  (begins_with p_vol (canon (win (text enc8 cps))) -> forall x, vol x = None) -> (length out < length b)%nat ->
  exists q, WGetcwd sgn vol gw g (text enc16 cps) b = Ok (out ++ 0 :: q, true).
Proof.
  intros sgn vol gw g cps b out A G Z Hn L8 (Ne & r & F & W1 & W2) V Lb.
  pose proof (text_len16 cps) as L16.
  rewrite getcwd_body by (assumption || lia || (apply text16_nz; exact Z) || (destruct cps as [|c l]; [congruence|]; pose proof (text_pos c l); destruct (text enc16 (c :: l)); [cbn in *; lia|discriminate])).
  rewrite body_text by (assumption || apply A).
  assert (By : Forall (fun c => 0 < c < 256) (text enc8 cps)).
  { apply text8_ctext; [apply G|exact Z]. }
  pose proof (form_len _ _ _ F) as FL. rewrite canon_length, win_len in FL.
  destruct (C81_exact_fit_refuted sgn vol b (text enc8 cps) false r out Ne ltac:(exists cps; split; [exact G|reflexivity]) By ltac:(lia) F V W1 W2) as (_ & _ & H). exact (H Lb).
Qed.

(** Nothing outside of the arrays is touched, if the names fit and seven more bytes are there. *)
Theorem C144_inside : forall sgn vol gw g cps b, arrays gw g -> good_text cps -> ~ In 0 cps -> (length (text enc8 cps) < CAP)%nat -> (forall x, vol x = None) -> (length (text enc8 cps) + 7 <= length b)%nat ->
  exists b' ok, WGetcwd sgn vol gw g (text enc16 cps) b = Ok (b', ok).
Proof.
  intros sgn vol gw g cps b A G Z L8 V Lb. destruct cps as [|c l]; [do 2 eexists; reflexivity|]. pose proof (text_len16 (c :: l)) as L16. pose proof (text_pos c l) as P.
  rewrite getcwd_body; [|exact A|destruct (text enc16 (c :: l)); [cbn in P; lia|discriminate]|apply text16_nz; exact Z|lia].
  rewrite body_text by (assumption || apply A). apply wgpf_safe; [|exact V|exact Lb].
  apply text8_ctext; [apply G|exact Z].
Qed.

(** A current directory of 8192 units or more: the call answers with whatever the array held. *)
Theorem C144_long_refuted : forall sgn vol gw g cur t q b out, arrays gw g -> (CAP <= length cur)%nat ->
  gw = t ++ 0 :: q -> ascii t -> accepts sgn t out -> ~ begins_with p_vol (canon (win t)) -> (length out < length b)%nat ->
  exists q', WGetcwd sgn vol gw g cur b = Ok (out ++ 0 :: q', true).
Proof.
  intros sgn vol gw g cur t q b out A L E As Ac V Lb. pose proof A as [Lw Lg]. destruct (ascii_texts t As) as (E16 & E8 & G).
  assert (Z : ~ In 0 t) by (intro X; pose proof (proj1 (Forall_forall _ _) As 0 X) as Y; cbv beta in Y; lia).
  assert (Lt : (length t < CAP)%nat) by (rewrite E, app_length in Lw; cbn [length] in Lw; lia).
  assert (S1 : WGetcwd sgn vol gw g cur b = WGetcwd sgn vol gw g t b).
  { rewrite (getcwd_body sgn vol gw g t b A) by (assumption || apply Ac). unfold WGetcwd. destruct cur as [|c cur]; [exfalso; cbn in L; unfold CAP in L; lia|].
    unfold sys_getcwd. rewrite (proj2 (Nat.ltb_ge _ _)) by lia. unfold wr. rewrite Lw, (proj2 (Nat.ltb_lt _ _)) by lia. cbn [bind]. rewrite E, upd_app_r by lia.
    destruct (CAP - 1 - length t)%nat as [|k] eqn:Q; cbn [upd]; rewrite cstr_at by exact Z; reflexivity. }
  rewrite S1. rewrite <- E16. apply C144_exact; try assumption; rewrite ?E8; try assumption; try (apply Ac). intro X. contradiction.
Qed.

(** A directory of exactly 8192 bytes in UTF-8 leaves no room for the terminator: the array is read
    past its end. *)
Theorem C144_full_refuted : forall sgn vol gw g cps b, arrays gw g -> good_text cps -> ~ In 0 cps ->
  length (text enc8 cps) = CAP -> (length (text enc16 cps) < CAP)%nat -> WGetcwd sgn vol gw g (text enc16 cps) b = UB.
Proof.
  intros sgn vol gw g cps b A G Z L8 L16. destruct cps as [|c l]; [exfalso; cbn in L8; unfold CAP in L8; lia|]. pose proof (text_pos c l) as P.
  rewrite getcwd_body; [|exact A|destruct (text enc16 (c :: l)); [cbn in P; lia|discriminate]|apply text16_nz; exact Z|exact L16].
  set (cps := c :: l) in *. unfold body. rewrite exe_units.
  assert (GA : Forall allowed (cps ++ [0])) by (apply Forall_app; split; [apply G|constructor; [|constructor]; unfold allowed; cbn; lia]).
  destruct (to_buffer_spec (cps ++ [0]) g CAP GA) as (o & E1 & K); [destruct A; lia|].
  assert (o = text enc8 cps) as ->.
  { eapply keeps_fun; [exact K|]. eapply keeps_app.
    - pose proof (keeps_all enc8 (Some CAP) enc8_len_pos cps [] (proj1 G) (fun _ => proj2 G)) as Q. apply Q. cbn [fits length]. lia.
    - apply k_drop; [|constructor]. intros (_ & _ & X). cbn [fits app enc8] in X. change (enc8 0) with [0] in X. cbn [length] in X. lia. }
  rewrite E1. cbn [bind]. unfold stored. rewrite L8. destruct A as [_ Lg]. rewrite <- Lg, skipn_all, app_nil_r.
  assert (U : forall s, Forall (fun x => x <> 0) s -> cstr s = UB).
  { clear. induction s as [|x s IH]; intro F; [reflexivity|]. cbn [cstr]. destruct (N.eqb_spec x 0) as [X|_]; [destruct (Forall_inv F X)|]. rewrite IH by exact (Forall_inv_tail F). reflexivity. }
  rewrite U by (apply text8_nz; exact Z). reflexivity.
Qed.

(** A last character for which there is no room is left out: the answer is another directory. *)
Theorem C144_cut_refuted : forall sgn vol gw g p c b out, arrays gw g -> ascii p -> length p = (CAP - 2)%nat -> allowed c -> 2048 <= c < 65536 ->
  accepts sgn p out -> ~ begins_with p_vol (canon (win p)) -> (length out < length b)%nat ->
  exists q, WGetcwd sgn vol gw g (text enc16 (p ++ [c])) b = Ok (out ++ 0 :: q, true).
Proof.
  intros sgn vol gw g p c b out A As Lp Hc Rc Ac V Lb. destruct (ascii_texts p As) as (E16 & E8 & G).
  assert (Zp : ~ In 0 p) by (intro X; pose proof (proj1 (Forall_forall _ _) As 0 X) as Y; cbv beta in Y; lia).
  assert (Et : text enc16 (p ++ [c]) = p ++ [c]).
  { unfold text. rewrite map_app, concat_app. fold (text enc16 p). rewrite E16. cbn. unfold enc16. rewrite (proj2 (N.ltb_lt _ _)) by lia. reflexivity. }
  assert (Z : ~ In 0 (p ++ [c])) by (intro X; apply in_app_iff in X; destruct X as [X|[X|[]]]; [contradiction|lia]).
  assert (Cv : (2 < CAP)%nat) by (unfold CAP; lia).
  rewrite Et, getcwd_body; [|exact A|destruct p; discriminate|exact Z|rewrite app_length; cbn [length]; lia]. unfold body.
  rewrite <- Et, exe_units.
  destruct (to_buffer_spec ((p ++ [c]) ++ [0]) g CAP) as (o & E1 & K); [|destruct A; lia|].
  { apply Forall_app; split; [apply Forall_app; split; [apply G|auto]|]. constructor; [|constructor]. unfold allowed. cbn. lia. }
  assert (o = p ++ [0]) as ->.
  { eapply keeps_fun; [exact K|]. rewrite <- app_assoc. eapply keeps_app.
    - pose proof (keeps_all enc8 (Some CAP) enc8_len_pos p [] (proj1 G) (fun _ => proj2 G)) as Q. rewrite E8 in Q. cbn [app] in Q. apply Q. cbn [fits length]. lia.
    - apply k_drop; [|apply k_take; [|constructor]].
      + intros (_ & _ & F). cbn [fits] in F. revert F. unfold enc8. rewrite (proj2 (N.ltb_ge c 128)), (proj2 (N.ltb_ge c 2048)), (proj2 (N.ltb_lt c 65536)) by lia. cbn [length]. lia.
      + unfold S_Utf8.accepts. split; [unfold allowed; cbn; lia|]. split; [unfold combining; lia|]. cbn [fits]. change (enc8 0) with [0]. cbn [length]. lia. }
  rewrite E1. cbn [bind]. unfold stored. rewrite <- app_assoc. cbn [app]. rewrite cstr_at by exact Zp. cbn [bind].
  destruct Ac as (Ne & r & F & W1 & W2). pose proof (form_len _ _ _ F) as FL. rewrite canon_length, win_len in FL.
  assert (By : Forall (fun c => 0 < c < 256) p) by (eapply Forall_impl; [|exact As]; cbv beta; intros; lia).
  destruct (C81_exact_fit_refuted sgn vol b p false r out Ne ltac:(exists p; split; [exact G|symmetry; exact E8]) By ltac:(lia) F ltac:(intro X; contradiction) W1 W2) as (_ & _ & H). exact (H Lb).
Qed.

(** Where char is signed, a directory on a drive with a character beyond ASCII in its name is not
    delivered at all. *)
Theorem C144_signed_refuted : forall vol gw g d rest x b, arrays gw g -> letter d -> good_text (d :: 58 :: rest) -> ~ In 0 rest -> In x rest -> 128 <= x ->
  (length (text enc8 (d :: 58%N :: rest)) < CAP)%nat -> exists b', WGetcwd true vol gw g (text enc16 (d :: 58 :: rest)) b = Ok (b', false).
Proof.
  intros vol gw g d rest x b A Ld G Zr Ix Hx L8. set (cps := d :: 58 :: rest) in *. pose proof (text_len16 cps) as L16. pose proof (text_pos d (58 :: rest)) as P. fold cps in P.
  assert (Hd : 65 <= d <= 122) by (destruct Ld; lia).
  assert (Z : ~ In 0 cps) by (intros [X|[X|X]]; [lia|discriminate|contradiction]).
  rewrite getcwd_body; [|exact A|destruct (text enc16 cps); [cbn in P; lia|discriminate]|apply text16_nz; exact Z|lia].
  rewrite body_text by (assumption || apply A).
  destruct (Nat.lt_ge_cases (length (text enc8 cps)) (length b)) as [Lb|Lb].
  2:{ unfold WGetPlatformFilename. rewrite (proj2 (Nat.ltb_lt _ _)) by lia. eauto. }
  assert (En : text enc8 cps = d :: 58 :: text enc8 rest).
  { unfold cps, text. cbn [map concat]. unfold enc8 at 1. rewrite (proj2 (N.ltb_lt d 128)) by lia. reflexivity. }
  assert (Ec : canon (win (text enc8 cps)) = d :: 58 :: win (text enc8 rest)).
  { rewrite En. cbn [win map]. rewrite (proj2 (N.eqb_neq d 47)) by lia. cbn [N.eqb Pos.eqb]. unfold canon. cbn [firstn].
    match goal with |- (if ?e then _ else _) = _ => destruct e as [X|_] end; [injection X as X _; exfalso; destruct Ld; lia|]. reflexivity. }
  assert (By : Forall (fun c => 0 < c < 256) (text enc8 cps)).
  { apply text8_ctext; [apply G|exact Z]. }
  assert (F : form (canon (win (text enc8 cps))) (win (text enc8 rest)) (p_uni ++ upper d :: 58 :: win (text enc8 rest))) by (rewrite Ec; apply f_drive; exact Ld).
  destruct (whole_outcome true vol b (text enc8 cps) false _ _ ltac:(rewrite En; discriminate) ltac:(exists cps; split; [exact G|reflexivity]) By Lb F) as [_ No].
  { rewrite Ec. intros [s X]. unfold p_vol in X. cbn [app] in X. injection X as X1 X2 _. discriminate. }
  apply No. intro Ac. apply (acc_spec true _ _ _ F (win_byte _ (ctext_byte _ By))) in Ac. destruct Ac as [W _]. rewrite Forall_forall in W.
  assert (Hb : exists y, In y (text enc8 rest) /\ 128 <= y).
  { destruct (in_split _ _ Ix) as (l1 & l2 & ->). unfold text. rewrite map_app, concat_app. cbn [map concat].
    assert (Q : exists y, In y (enc8 x) /\ 128 <= y).
    { unfold enc8. rewrite (proj2 (N.ltb_ge x 128)) by lia. destruct (x <? 2048); [|destruct (x <? 65536)]; (eexists; split; [left; reflexivity|lia]). }
    destruct Q as (y & Y1 & Y2). exists y. split; [|exact Y2]. apply in_app_iff. right. apply in_app_iff. left. exact Y1. }
  destruct Hb as (y & Y1 & Y2). assert (Iy : In y (win (text enc8 rest))).
  { unfold win. apply in_map_iff. exists y. split; [|exact Y1]. rewrite (proj2 (N.eqb_neq y 47)) by lia. reflexivity. }
  destruct (W y Iy) as (_ & _ & _ & S). specialize (S eq_refl). lia.
Qed.

(** "C:\d"; then a directory that does not fit, while the array still holds "C:\old". *)
Example C144_ex :
  let gw := [67; 58; 92; 111; 108; 100] ++ repeat 0 (CAP - 6) in let g := repeat 0 CAP in
  WGetcwd true none gw g [67; 58; 92; 100] (ones 10) = Ok (p_uni ++ [67; 58; 92; 100] ++ [0; 1], true) /\
  WGetcwd true none gw g (67 :: 58 :: 92 :: repeat 97 CAP) (ones 12) = Ok (p_uni ++ [67; 58; 92; 111; 108; 100] ++ [0; 1], true) /\
  (exists b, WGetcwd true none gw g [67; 58; 92; 252] (ones 12) = Ok (b, false)) /\
  WGetcwd false none gw g [67; 58; 92; 252] (ones 12) = Ok (p_uni ++ [67; 58; 92; 195; 188] ++ [0; 1; 1], true).
Proof. vm_compute. repeat split. eexists. reflexivity. Qed.

(** 4096 times e with an acute accent fill the array. *)
Example C144_full_ex sgn vol b : WGetcwd sgn vol (repeat 0 CAP) (repeat 0 CAP) (text enc16 (repeat 233 (N.to_nat 4096))) b = UB.
Proof.
  assert (Q : forall x, In x (repeat 233 (N.to_nat 4096)) -> x = 233) by (intros x X; exact (repeat_spec _ _ _ X)).
  apply C144_full_refuted.
  - split; apply repeat_length.
  - split; [apply Forall_forall; intros x X; rewrite (Q x X); apply allowedb_spec; reflexivity|]. change (N.to_nat 4096) with (S (N.to_nat 4095)). cbn [repeat]. unfold combining. lia.
  - intro X. discriminate (Q 0 X).
  - vm_compute. reflexivity.
  - apply Nat.ltb_lt. vm_compute. reflexivity.
Qed.

Definition C144_all := (C144_exact, C144_inside, C144_long_refuted, C144_full_refuted, C144_cut_refuted, C144_signed_refuted).
Print Assumptions C144_all.
