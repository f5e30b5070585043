(** Windows file names: File::GetAbsoluteFilename of utf8_file_dir.cpp. *)
From Coq Require Import String Ascii.
From Verif Require Import Base S_Utf8 P_Utf8 S_Path M_Path P_MixedVar P_Path S_WinPath M_WinPath P_WinPath Prop_WinPath P_WinAbs.
Open Scope N_scope.
Open Scope list_scope.
Notation length := List.length.

Lemma accepted_text sgn vol b name out : accepts sgn name out -> wf_utf8 name -> Forall (fun c => 0 < c < 256) name ->
  ~ begins_with p_vol (canon (win name)) -> (length out < length b)%nat ->
  WGetPlatformFilename sgn vol b name false = Ok (out ++ 0 :: skipn (S (length out)) b, true) /\ nz out /\ (length name <= length out)%nat.
Proof.
  intros (Hne & r & F & A1 & A2) W C V L. pose proof (form_grows _ _ _ F) as G. rewrite canon_length, win_len in G.
  destruct (whole_outcome sgn vol b name false r out Hne W C ltac:(lia) F ltac:(intro X; contradiction)) as [Y _].
  assert (A : acc sgn (canon (win name)) r) by (apply (acc_spec sgn _ r out F (win_byte _ (ctext_byte _ C))); split; assumption).
  destruct (Y A) as (_ & _ & S3). rewrite canon_length, win_len, skipn_length in S3. split.
  - rewrite S3 by lia. do 4 f_equal. assert (Sk : forall (l : bytes) i j, skipn i (skipn j l) = skipn (i + j) l).
    { induction l as [|x l IH]; intros i [|j]; rewrite ?skipn_nil; cbn [skipn]; try reflexivity; rewrite ?Nat.add_0_r, ?Nat.add_succ_r; cbn [skipn]; [reflexivity|apply IH]. }
    rewrite Sk. f_equal. lia.
  - split; [|exact G]. apply (form_chars _ _ _ _ F); [|repeat constructor; discriminate|].
    + intros c Hc. unfold upper. destruct (N.leb_spec 97 c), (N.leb_spec c 122); cbn [andb]; lia.
    + apply canon_nz, win_nz, ctext_nz. exact C.
Qed.

Lemma volume_form v p t r : volume v -> form t r (v ++ p) -> ~ begins_with p_vol t.
Proof.
  intros V F X. assert (E : exists r', v ++ p = p_uni ++ p_vol ++ r' \/ v ++ p = t).
  { remember (v ++ p) as o eqn:Eo. clear Eo V. destruct F as [c r L|c r L|u r U D|u c r U L|r D NU ND|r NU ND|r|t NN NV D]; destruct X as [x X]; try discriminate X.
    - exists r. right. reflexivity.
    - destruct (unc_shape u U) as (a & b & d & -> & _). discriminate X.
    - exists r. left. reflexivity.
    - exists x. right. reflexivity. }
  destruct E as [r' [E|E]].
  - destruct V as [c L|u h U Hh H9 H4]; [discriminate E|]. destruct (unc_shape u U) as (a & b & d & -> & A & B & D). cbn in E. injection E as E1 E2 _. subst a. discriminate A.
  - destruct X as [x X]. destruct (volume_facts v V) as (_ & _ & [v' Ev] & _). rewrite Ev, X in E. discriminate E.
Qed.

Lemma last_skipn (b : bytes) k : (k < length b)%nat -> last (skipn k b) 0 = last b 0.
Proof.
  revert k. induction b as [|x b IH]; intros [|k] L; cbn [length] in L; try lia; [reflexivity|]. cbn [skipn]. rewrite IH by lia.
  destruct b; [cbn in L; lia|reflexivity].
Qed.

(** C84.  The absolute form of a name is the volume followed by the components found by walking
    from the root of the volume, or from the base directory. *)

(** A name with a volume of its own. *)
Theorem C84_absolute sgn vol g2 g3 cwd result base name v p (trailing : bool) :
  length g2 = S LIM -> length g3 = S LIM -> last g2 0 <> 92 ->
  wf_utf8 name -> Forall (fun c => 0 < c < 256) name -> accepts sgn name (v ++ p) -> volume v -> rooted p ->
  (length v + length p + 3 <= LIM)%nat ->
  let want := v ++ wrender (resolve [] (wsplit p)) ++ (if trailing then [92] else []) in
  (length want < length result)%nat ->
  exists r, WGetAbsoluteFilename sgn vol g2 g3 cwd result base name trailing = Ok (r, true) /\ cstr r = Ok want /\ length r = length result.
Proof.
  intros L2 L3 Z W C A V R Len want Cap. destruct (volume_facts v V) as (Sv & Hv & _ & Pv).
  assert (NV : ~ begins_with p_vol (canon (win name))) by (destruct A as (_ & r & F & _); exact (volume_form v p _ r V F)).
  destruct (accepted_text sgn vol g3 name (v ++ p) A W C NV ltac:(rewrite app_length; lia)) as (E & Nz & Ln).
  unfold WGetAbsoluteFilename. rewrite E. cbn [bind negb]. rewrite cstr_app by exact Nz. cbn [bind].
  assert (Pp : proper (hd [] (wsplit p))) by (destruct R as [->|[r ->]]; split; discriminate).
  destruct (wcleaned p ltac:(lia) Pp) as (f & Ef & F1 & F2 & F3 & F4 & F5 & F6 & F7 & F8).
  assert (Rr : rooted (wremove_dots p)).
  { pose proof (wremove_sim (length p) p ltac:(lia)) as S. pose proof (remove_dots_hd (sw p)) as H. rewrite <- S in H.
    destruct R as [->|[r ->]]; [left; reflexivity|right]. destruct (wremove_dots (92 :: r)) as [|c x]; [discriminate H|]. exists x. f_equal.
    cbn in H. change 47 with (swap 92) in H. apply swap_inj in H. exact H. }
  assert (Lr : (length (wremove_dots p) <= length p)%nat).
  { pose proof (remove_dots_len (length p) (sw p) ltac:(rewrite sw_len; lia)) as X. rewrite <- (wremove_sim (length p) p ltac:(lia)), !sw_len in X. exact X. }
  rewrite (remove_behind v Sv p R), (close_behind v Sv Hv _ Rr ltac:(lia) f Ef).
  assert (Rf : rooted f).
  { destruct R as [->|[r ->]]; [left; apply F8; reflexivity|right]. destruct f as [|c f]; [discriminate F1|]. cbn in F1. subst c. eexists; reflexivity. }
  destruct (Pv f Rf) as [P1 P2]. rewrite P1. apply Nat.ltb_lt in P2. rewrite P2. rewrite firstn_app, firstn_all, Nat.sub_diag. cbn [firstn]. rewrite app_nil_r.
  assert (Eb : blit g2 0 (v ++ [0]) = Ok ((v ++ []) ++ 0 :: skipn (S (length v)) g2)).
  { unfold blit. rewrite app_length. cbn [length Nat.add]. destruct (Nat.leb_spec (length v + 1) (length g2)); [|lia]. cbn [firstn app].
    rewrite app_nil_r, <- app_assoc. rewrite Nat.add_1_r. reflexivity. }
  match goal with |- context [bind ?x _] => replace x with (Ok ((v ++ []) ++ 0 :: skipn (S (length v)) g2)) by (symmetry; exact Eb) end. cbn [bind].
  assert (Wp : wplace [] p = resolve [] (wsplit p)) by (unfold wplace; destruct (hd 0 p =? 92); reflexivity).
  unfold want. rewrite <- Wp. apply Forall_app in Nz.
  apply (wjoin_ok v [] (skipn (S (length v)) g2) f p (v ++ f) (length v) result trailing); try assumption.
  - left. reflexivity.
  - rewrite app_nil_r. apply Nz.
  - apply Nz.
  - repeat constructor; discriminate.
  - rewrite app_nil_r, app_length. cbn [length]. rewrite skipn_length. lia.
  - rewrite last_skipn by lia. exact Z.
  - apply skipn_mid.
  - rewrite <- (Nat.add_0_r (length v)) at 1. rewrite nth_behind. destruct f; reflexivity.
  - cbn [length]. lia.
  - rewrite Wp. exact Cap.
Qed.

Lemma plain_form sgn name : accepts sgn name (win name) -> Forall (fun c => 0 < c < 256) name -> ~ begins_with [92; 92] (win name) ->
  Forall (wallowed sgn) (win name) /\ ~ begins_with p_vol (canon (win name)).
Proof.
  intros (Hne & r & F & A1 & A2) C N.
  assert (Ec : canon (win name) = win name \/ exists x, canon (win name) = p_uni ++ x).
  { destruct (canon_cases (win name)) as [(x & _ & E)|(_ & E)]; [right; exists x; exact E|left; exact E]. }
  remember (win name) as o eqn:Eo. clear Eo. remember (canon o) as t eqn:Et. clear Et.
  destruct F as [c r L|c r L|u r U D|u c r U L|r D NU ND|r NU ND|r|t NN NV D].
  - exfalso. apply N. eexists. reflexivity.
  - exfalso. apply N. eexists. reflexivity.
  - destruct (unc_shape u U) as (a & b & c & -> & _). exfalso. apply N. eexists. reflexivity.
  - destruct (unc_shape u U) as (a & b & d & -> & _). exfalso. apply N. eexists. reflexivity.
  - exfalso. apply N. eexists. reflexivity.
  - exfalso. apply N. eexists. reflexivity.
  - exfalso. apply N. eexists. reflexivity.
  - split; [exact A1|exact NV].
Qed.

Lemma relative_core sgn vol g2 g3 cwd result base name v d (trailing : bool) :
  length g2 = S LIM -> length g3 = S LIM -> last g2 0 <> 92 ->
  wf_utf8 name -> Forall (fun c => 0 < c < 256) name -> accepts sgn name (win name) -> ~ begins_with [92; 92] (win name) ->
  proper (hd [] (wsplit (win name))) ->
  volume v -> rooted d -> nz (v ++ d) -> Forall proper (wsplit d) ->
  match base with
  | Some dd => WGetPlatformFilename sgn vol g2 dd false
  | None => match cwd with
            | Some c => if (length c + 1 <=? length g2)%nat then let* b := blit g2 0 (c ++ [0]) in Ok (b, true) else Ok (g2, false)
            | None => Ok (g2, false)
            end
  end = Ok ((v ++ d) ++ 0 :: skipn (S (length (v ++ d))) g2, true) ->
  (length v + length d + length name + 3 <= LIM)%nat ->
  (length (v ++ wrender (wplace d (win name)) ++ wending trailing) < length result)%nat ->
  exists r, WGetAbsoluteFilename sgn vol g2 g3 cwd result base name trailing = Ok (r, true) /\
    cstr r = Ok (v ++ wrender (wplace d (win name)) ++ wending trailing) /\ length r = length result.
Proof.
  intros L2 L3 Z W C A NN Pn V R Nz Pd G Len Cap. destruct (volume_facts v V) as (Sv & Hv & Bv & Pv).
  destruct (plain_form sgn name A C NN) as [Al NV].
  destruct (accepted_text sgn vol g3 name (win name) A W C NV ltac:(rewrite win_len; lia)) as (E & Nn & _).
  unfold WGetAbsoluteFilename. rewrite E. cbn [bind negb]. rewrite cstr_app by exact Nn. cbn [bind].
  destruct (wcleaned (win name) ltac:(rewrite win_len; lia) Pn) as (f & Ef & F1 & F2 & F3 & F4 & F5 & F6 & F7 & F8). rewrite Ef.
  assert (N63 : ~ In 63 f).
  { intro X. apply F7 in X. destruct X as [X|X]; [discriminate X|]. rewrite Forall_forall in Al. destruct (Al _ X) as (_ & _ & Y & _). apply Y. cbn. tauto. }
  assert (S0 : starts true s_unc f = false /\ starts false s_uni f = false).
  { split; apply not_true; intro X.
    - apply starts_ci in X. destruct X as (u & x & -> & U). apply N63. apply in_or_app. left. destruct (unc_shape u U) as (a & b & c & -> & _). cbn. tauto.
    - apply starts_cs in X. destruct X as (x & ->). apply N63. cbn. tauto. }
  assert (I0 : StartVolume (WGetPlatformFilenameInfo f) = 0%nat /\ StartPath (WGetPlatformFilenameInfo f) = 0%nat).
  { unfold WGetPlatformFilenameInfo. destruct S0 as [-> ->]. split; reflexivity. }
  destruct I0 as [-> ->]. change (0 <? 0)%nat with false. cbv iota.
  match goal with |- context [bind ?x _] => replace x with (Ok ((v ++ d) ++ 0 :: skipn (S (length (v ++ d))) g2, true)) by (symmetry; exact G) end.
  cbn [bind negb].
  rewrite pre_text; [|repeat constructor; discriminate|lia]. cbn [bind skipn].
  replace (starts false s_uni (v ++ d)) with true by (symmetry; apply starts_cs; destruct Bv as [x ->]; exists (x ++ d); rewrite <- app_assoc; reflexivity).
  cbn [negb].
  apply (wjoin_ok v d (skipn (S (length (v ++ d))) g2) f (win name) f 0 result trailing); try assumption.
  - rewrite app_length. cbn [length]. rewrite skipn_length, app_length. lia.
  - rewrite last_skipn by (rewrite app_length; lia). exact Z.
  - reflexivity.
  - destruct f; reflexivity.
  - rewrite win_len. exact Len.
Qed.

(** A name without a volume, seen from a base directory: from the root of its volume when the
    name starts with a slash or backslash. *)
Theorem C84_relative sgn vol g2 g3 cwd result base name v d (trailing : bool) :
  length g2 = S LIM -> length g3 = S LIM -> last g2 0 <> 92 ->
  wf_utf8 name -> Forall (fun c => 0 < c < 256) name -> accepts sgn name (win name) -> ~ begins_with [92; 92] (win name) ->
  proper (hd [] (wsplit (win name))) ->
  wf_utf8 base -> Forall (fun c => 0 < c < 256) base -> accepts sgn base (v ++ d) -> volume v -> rooted d -> Forall proper (wsplit d) ->
  (length v + length d + length name + 3 <= LIM)%nat ->
  let want := v ++ wrender (wplace d (win name)) ++ (if trailing then [92] else []) in
  (length want < length result)%nat ->
  exists r, WGetAbsoluteFilename sgn vol g2 g3 cwd result (Some base) name trailing = Ok (r, true) /\ cstr r = Ok want /\ length r = length result.
Proof.
  intros L2 L3 Z W C A NN Pn Wb Cb Ab V R Pd Len want Cap.
  assert (NV : ~ begins_with p_vol (canon (win base))) by (destruct Ab as (_ & r & F & _); exact (volume_form v d _ r V F)).
  destruct (accepted_text sgn vol g2 base (v ++ d) Ab Wb Cb NV ltac:(rewrite app_length; lia)) as (E & Nz & _).
  apply (relative_core sgn vol g2 g3 cwd result (Some base) name v d trailing); assumption.
Qed.

(** The same from the current directory. *)
Theorem C84_relative_cwd sgn vol g2 g3 result name v d (trailing : bool) :
  length g2 = S LIM -> length g3 = S LIM -> last g2 0 <> 92 ->
  wf_utf8 name -> Forall (fun c => 0 < c < 256) name -> accepts sgn name (win name) -> ~ begins_with [92; 92] (win name) ->
  proper (hd [] (wsplit (win name))) ->
  volume v -> rooted d -> ~ In 0 (v ++ d) -> Forall proper (wsplit d) ->
  (length v + length d + length name + 3 <= LIM)%nat ->
  let want := v ++ wrender (wplace d (win name)) ++ (if trailing then [92] else []) in
  (length want < length result)%nat ->
  exists r, WGetAbsoluteFilename sgn vol g2 g3 (Some (v ++ d)) result None name trailing = Ok (r, true) /\ cstr r = Ok want /\ length r = length result.
Proof.
  intros L2 L3 Z W C A NN Pn V R Nz Pd Len want Cap.
  apply (relative_core sgn vol g2 g3 (Some (v ++ d)) result None name v d trailing); try assumption.
  - apply Forall_forall. intros x Hx ->. contradiction.
  - destruct (Nat.leb_spec (length (v ++ d) + 1) (length g2)) as [_|X]; [|rewrite app_length in X; lia].
    unfold blit. rewrite app_length. cbn [length Nat.add]. destruct (Nat.leb_spec (length (v ++ d) + 1) (length g2)) as [_|X]; [|rewrite app_length in X; lia].
    cbn [firstn app bind]. rewrite <- (app_assoc (v ++ d)). rewrite Nat.add_1_r. reflexivity.
Qed.

Definition chars (s : string) : bytes := map (fun c => N.of_nat (nat_of_ascii c)) (list_ascii_of_string s).
Definition blank : bytes := repeat 0 (S LIM).

(** On the network the volume is the host alone, so ".." leaves the share. *)
Theorem C84_share_refuted : exists r,
  WGetAbsoluteFilename true none blank blank None (repeat 0 100) None (chars "\\s\share\..\other\x") false = Ok (r, true) /\
  cstr r = Ok (chars "\\?\UNC\s\other\x").
Proof. eexists. split; vm_compute; reflexivity. Qed.

(** The root of a drive without its backslash is the drive, not its root directory. *)
Theorem C84_root_refuted : exists r s,
  WGetAbsoluteFilename true none blank blank None (repeat 0 100) (Some (chars "C:\x\y")) (chars "b\..\..\..") false = Ok (r, true) /\
  cstr r = Ok s /\ s = chars "\\?\C:" /\ ~ begins_with (chars "\\?\C:\") s.
Proof. do 2 eexists. split; [vm_compute; reflexivity|]. split; [vm_compute; reflexivity|]. split; [reflexivity|]. intros [x X]. discriminate X. Qed.

(** A name that starts with ".." is not resolved. *)
Theorem C84_dotdot_refuted : exists r s,
  WGetAbsoluteFilename true none blank blank None (repeat 0 100) (Some (chars "C:\x\y")) (chars "..") false = Ok (r, true) /\
  cstr r = Ok s /\ ~ Forall proper (wsplit s).
Proof.
  do 2 eexists. split; [vm_compute; reflexivity|]. split; [vm_compute; reflexivity|].
  intro F. do 6 apply Forall_inv_tail in F. apply Forall_inv in F. destruct F as [_ F]. apply F. reflexivity.
Qed.

(** A name relative to the current directory of a drive has its first component taken for a
    part of the volume. *)
Theorem C84_drive_relative_refuted : exists r,
  WGetAbsoluteFilename true none blank blank None (repeat 0 100) (Some (chars "C:\x\y")) (chars "C:a\..\b") false = Ok (r, true) /\
  cstr r = Ok (chars "\\?\C:a\b").
Proof. eexists. split; vm_compute; reflexivity. Qed.

Example C84_ex : exists r1 r2 r3,
  WGetAbsoluteFilename true none blank blank None (repeat 7 40) None (chars "c:/a//.\b/../d") true = Ok (r1, true) /\ cstr r1 = Ok (chars "\\?\C:\a\d\") /\
  WGetAbsoluteFilename true none blank blank None (repeat 7 40) (Some (chars "\\srv\pub")) (chars "x/../y.txt") false = Ok (r2, true) /\ cstr r2 = Ok (chars "\\?\UNC\srv\pub\y.txt") /\
  WGetAbsoluteFilename true none blank blank (Some (chars "\\?\C:\w")) (repeat 7 40) None (chars "/z") false = Ok (r3, true) /\ cstr r3 = Ok (chars "\\?\C:\z").
Proof. do 3 eexists. do 5 (split; [vm_compute; reflexivity|]). vm_compute; reflexivity. Qed.

Print Assumptions C84_absolute.
Print Assumptions C84_relative.
Print Assumptions C84_relative_cwd.
Print Assumptions C84_share_refuted.
Print Assumptions C84_root_refuted.
Print Assumptions C84_dotdot_refuted.
Print Assumptions C84_drive_relative_refuted.
