(** Windows file names: File::GetPlatformFilename of utf8_file_dir.cpp. *)
From Verif Require Import Base S_Utf8 P_Utf8 S_Path P_Path S_WinPath M_WinPath P_WinPath.
Open Scope N_scope.

(** C81.  The result is written inside the buffer of [length b] bytes. *)

(** Whatever the name, seven bytes more than its length are enough. *)
Theorem C81_safe sgn vol b name unsafe :
  Forall (fun c => 0 < c < 256) name -> (forall x, vol x = None) -> (length name + 7 <= length b)%nat ->
  exists b' ok, WGetPlatformFilename sgn vol b name unsafe = Ok (b', ok).
Proof. apply wgpf_safe. Qed.

Lemma whole_outcome sgn vol b name unsafe r out :
  name <> [] -> wf_utf8 name -> Forall (fun c => 0 < c < 256) name -> (length name < length b)%nat ->
  form (canon (win name)) r out -> (begins_with p_vol (canon (win name)) -> forall x, vol x = None) ->
  outcome sgn (canon (win name)) r out (skipn (S (length name)) b) (WGetPlatformFilename sgn vol b name unsafe).
Proof.
  intros Hne W C L F V. rewrite wgpf_good by (assumption || exact (ctext_nz _ C)).
  pose proof (canon_ne _ (win_ne _ Hne)) as Hc. pose proof (canon_nz _ (win_nz _ (ctext_nz _ C))) as Z.
  exact (gpf_form sgn vol unsafe _ r out (skipn (S (length name)) b) F Z Hc V).
Qed.

(** For an acceptable name whose normalised text is [out]: a buffer too small for the text is
    refused, one with room for the text and its terminator is used, and one with room for the
    text alone is written past its end. *)
Theorem C81_exact_fit_refuted sgn vol b name unsafe r out :
  name <> [] -> wf_utf8 name -> Forall (fun c => 0 < c < 256) name -> (length name < length b)%nat ->
  form (canon (win name)) r out -> (begins_with p_vol (canon (win name)) -> forall x, vol x = None) ->
  Forall (wallowed sgn) r -> Forall (fun w => ~ is_device w) (looked_at (canon (win name)) r) ->
  (length b = length out -> WGetPlatformFilename sgn vol b name unsafe = UB) /\
  ((length b < length out)%nat -> exists b', WGetPlatformFilename sgn vol b name unsafe = Ok (b', false)) /\
  ((length out < length b)%nat -> exists q, WGetPlatformFilename sgn vol b name unsafe = Ok (out ++ 0 :: q, true)).
Proof.
  intros Hne W C L F V A1 A2. destruct (whole_outcome sgn vol b name unsafe r out Hne W C L F V) as [Y _].
  assert (A : acc sgn (canon (win name)) r) by (apply (acc_spec sgn _ r out F (win_byte _ (ctext_byte _ C))); split; assumption).
  destruct (Y A) as (S1 & S2 & S3). rewrite canon_length, win_len, skipn_length in S1, S2, S3.
  split; [intro X; apply S2; lia|]. split; [intro X; apply S1; lia|].
  intro X. eexists. apply S3. lia.
Qed.

Definition none : bytes -> option N := fun _ => None.
Definition ones (n : nat) : bytes := repeat 1 n.

(** "C:" in a buffer of 6 bytes, whose normalised text is \\?\C: *)
Example C81_overrun : WGetPlatformFilename true none (ones 6) [67; 58] false = UB.
Proof. vm_compute. reflexivity. Qed.
Example C81_too_small : WGetPlatformFilename true none (ones 5) [67; 58] false = Ok ([67; 58; 0; 1; 1], false).
Proof. vm_compute. reflexivity. Qed.
(** \\a\b in a buffer of 11 bytes *)
Example C81_overrun_net : WGetPlatformFilename true none (ones 11) [92; 92; 97; 92; 98] false = UB.
Proof. vm_compute. reflexivity. Qed.
(** \\?\a in a buffer of 9 bytes *)
Example C81_overrun_uni : WGetPlatformFilename true none (ones 9) [92; 92; 63; 92; 97] false = UB.
Proof. vm_compute. reflexivity. Qed.

(** Should the registry know the volume, the name \\?\Volume{1}\ is cut with a length that
    has wrapped around. *)
Theorem C81_volume_refuted :
  WGetPlatformFilename true (fun _ => Some 67) (ones 64) (p_vol ++ [49; 125; 47]) false = UB.
Proof. vm_compute. reflexivity. Qed.

(** C82.  A name is accepted exactly if it has only permitted characters and no component is a
    device. *)

(** What is accepted: the characters after the prefix must be permitted, and devices are looked
    for in every component if there is no prefix, and in all but the first otherwise. *)
Theorem C82_accepts sgn vol b name unsafe r out :
  name <> [] -> wf_utf8 name -> Forall (fun c => 0 < c < 256) name ->
  form (canon (win name)) r out -> (begins_with p_vol (canon (win name)) -> forall x, vol x = None) ->
  (length name < length b)%nat -> (length out < length b)%nat ->
  ((exists b', WGetPlatformFilename sgn vol b name unsafe = Ok (b', true)) <->
   Forall (wallowed sgn) r /\ Forall (fun w => ~ is_device w) (looked_at (canon (win name)) r)).
Proof.
  intros Hne W C F V L Lo. destruct (whole_outcome sgn vol b name unsafe r out Hne W C L F V) as [Y Nn].
  pose proof (acc_spec sgn _ r out F (win_byte _ (ctext_byte _ C))) as P. unfold facc in P. rewrite <- P.
  split.
  - intros [b' E]. destruct (acc_dec sgn (canon (win name)) r) as [A|A]; [exact A|]. destruct (Nn A) as [b2 E2]. congruence.
  - intro A. destruct (Y A) as (_ & _ & S3). eexists. apply S3. rewrite canon_length, win_len, skipn_length. lia.
Qed.

(** Without a prefix (a relative name) every component is checked. *)
Theorem C82_relative sgn vol b name unsafe :
  name <> [] -> wf_utf8 name -> Forall (fun c => 0 < c < 256) name -> ~ In 58 name -> ~ begins_with [92; 92] (canon (win name)) ->
  ~ begins_with p_vol (canon (win name)) -> (length name < length b)%nat ->
  ((exists b', WGetPlatformFilename sgn vol b name unsafe = Ok (b', true)) <->
   Forall (wallowed sgn) (canon (win name)) /\ Forall (fun w => ~ is_device w) (wsplit (canon (win name)))).
Proof.
  intros Hne W C Nc NN NV L. pose proof (C82_accepts sgn vol b name unsafe (canon (win name)) (canon (win name))) as H.
  unfold looked_at in H. destruct (list_eq_dec N.eq_dec (canon (win name)) (canon (win name))) as [_|X]; [|congruence].
  apply H; try assumption.
  - apply f_plain; [exact NN|exact NV|]. intros c r' E. exfalso.
    assert (I : In 58 (canon (win name))) by (rewrite E; right; left; reflexivity).
    destruct (canon_cases (win name)) as [(r & _ & E2)|(_ & E2)].
    + apply NN. rewrite E2. exists (63 :: 92 :: r). reflexivity.
    + rewrite E2 in I. unfold win in I. apply in_map_iff in I. destruct I as (x & Ex & Ix). destruct (N.eqb_spec x 47); [discriminate|]. subst x. exact (Nc Ix).
  - intro X. contradiction (NV X).
  - rewrite canon_length, win_len. exact L.
Qed.

(** "C:NUL" is accepted, although NUL is a device on every drive. *)
Theorem C82_drive_refuted :
  is_device [78; 85; 76] /\
  WGetPlatformFilename true none (ones 12) [99; 58; 78; 85; 76] false = Ok (p_uni ++ [67; 58; 78; 85; 76] ++ [0; 1; 1], true).
Proof. split; [left; left; reflexivity|vm_compute; reflexivity]. Qed.

(** "C:\x\nul.txt", "a/CON", "lpt1.x" are refused; "nullify", "com", "COM1x" are not. *)
Example C82_ex :
  WGetPlatformFilename true none (ones 20) [67; 58; 92; 120; 92; 110; 117; 108; 46; 116; 120; 116] false = Ok ([67; 58; 92; 120; 92; 110; 117; 108; 46; 116; 120; 116; 0] ++ ones 7, false) /\
  WGetPlatformFilename true none (ones 8) [97; 47; 67; 79; 78] false = Ok ([97; 92; 67; 79; 78; 0; 1; 1], false) /\
  WGetPlatformFilename true none (ones 8) [108; 112; 116; 49; 46; 120] false = Ok ([108; 112; 116; 49; 46; 120; 0; 1], false) /\
  WGetPlatformFilename true none (ones 8) [110; 117; 108; 108; 105; 102; 121] false = Ok ([110; 117; 108; 108; 105; 102; 121; 0], true) /\
  WGetPlatformFilename true none (ones 8) [99; 111; 109] false = Ok ([99; 111; 109; 0; 1; 1; 1; 1], true) /\
  WGetPlatformFilename true none (ones 8) [67; 79; 77; 49; 120] false = Ok ([67; 79; 77; 49; 120; 0; 1; 1], true).
Proof. vm_compute. repeat split. Qed.

(** C83.  The text of an accepted name is its normal form, and normalising again changes
    nothing. *)

Theorem C83_text sgn vol b name unsafe r out b' :
  name <> [] -> wf_utf8 name -> Forall (fun c => 0 < c < 256) name ->
  form (canon (win name)) r out -> (begins_with p_vol (canon (win name)) -> forall x, vol x = None) ->
  WGetPlatformFilename sgn vol b name unsafe = Ok (b', true) -> exists q, b' = out ++ 0 :: q.
Proof.
  intros Hne W C F V E.
  assert (L : (length name < length b)%nat).
  { destruct (Nat.lt_ge_cases (length name) (length b)) as [L|L]; [exact L|]. unfold WGetPlatformFilename in E.
    destruct (Nat.ltb_spec (length b) (length name + 1)); [discriminate E|lia]. }
  destruct (whole_outcome sgn vol b name unsafe r out Hne W C L F V) as [Y Nn].
  destruct (acc_dec sgn (canon (win name)) r) as [A|A].
  - destruct (Y A) as (S1 & S2 & S3). rewrite canon_length, win_len, skipn_length in S1, S2, S3.
    destruct (Nat.lt_trichotomy (length b) (length out)) as [X|[X|X]].
    + destruct S1 as [b2 E2]; [lia|]. congruence.
    + rewrite S2 in E by lia. discriminate.
    + rewrite S3 in E by lia. injection E as <-. eexists. reflexivity.
  - destruct (Nn A) as [b2 E2]. congruence.
Qed.

Theorem C83_idempotent sgn vol b name unsafe b' b2 s q :
  name <> [] -> Forall (fun c => 32 <= c < 127) name -> ~ begins_with p_vol name ->
  WGetPlatformFilename sgn vol b name false = Ok (b', true) -> b' = s ++ 0 :: q -> ~ In 0 s -> (length s < length b2)%nat ->
  exists q2, WGetPlatformFilename sgn vol b2 s unsafe = Ok (s ++ 0 :: q2, true).
Proof.
  intros Hne P NV E Eb Ns L2.
  assert (W : wf_utf8 name) by (apply ascii_wf; exact P).
  assert (C : Forall (fun c => 0 < c < 256) name) by (eapply Forall_impl; [|exact P]; cbv beta; intros; lia).
  assert (V : begins_with p_vol (canon (win name)) -> forall x, vol x = None) by (intro X; apply win_vol in X; contradiction).
  assert (L : (length name < length b)%nat).
  { destruct (Nat.lt_ge_cases (length name) (length b)) as [L|L]; [exact L|]. unfold WGetPlatformFilename in E.
    destruct (Nat.ltb_spec (length b) (length name + 1)); [discriminate E|lia]. }
  pose proof (canon_ne _ (win_ne _ Hne)) as Hc.
  destruct (form_total (canon (win name)) Hc) as [D|[D|(r & out & F)]].
  { rewrite wgpf_good, device_form in E by (assumption || exact (ctext_nz _ C) || (left; exact D)). discriminate E. }
  { rewrite wgpf_good, device_form in E by (assumption || exact (ctext_nz _ C) || (right; exact D)). discriminate E. }
  destruct (C83_text sgn vol b name false r out b' Hne W C F V E) as [q' Eo].
  assert (Pt : Forall (fun c => 32 <= c < 127 /\ c <> 47) (canon (win name))).
  { assert (Pw : Forall (fun c => 32 <= c < 127 /\ c <> 47) (win name)).
    { unfold win. apply Forall_map. eapply Forall_impl; [|exact P]. cbv beta. intros c Hc0. destruct (N.eqb_spec c 47); lia. }
    destruct (canon_cases (win name)) as [(r' & E1 & E2)|(_ & E2)]; rewrite E2; [|exact Pw]. rewrite E1 in Pw.
    apply Forall_app in Pw. apply Forall_app. split; [repeat constructor; (discriminate || lia)|apply Pw]. }
  assert (Po : Forall (fun c => 32 <= c < 127 /\ c <> 47) out).
  { apply (form_chars _ _ _ _ F); [|repeat constructor; (discriminate || lia)|exact Pt].
    intros c Hc0. unfold upper. destruct (N.leb_spec 97 c), (N.leb_spec c 122); cbn [andb]; lia. }
  rewrite Forall_forall in Po.
  assert (Es : s = out).
  { apply (cut_eq s out q q'); [congruence|exact Ns|]. intro X. specialize (Po 0 X). lia. }
  subst s.
  destruct (whole_outcome sgn vol b name false r out Hne W C L F V) as [_ Nn].
  destruct (acc_dec sgn (canon (win name)) r) as [A|A]; [|destruct (Nn A); congruence].
  destruct (form_again sgn _ _ _ F) as (r2 & F2 & A2 & C2);
    [intro X; apply win_vol in X; contradiction|apply canon_canon|exact A|].
  assert (Wo : win out = out) by (apply win_id; intro X; specialize (Po 47 X); lia).
  assert (Ho : out <> []) by (intros ->; pose proof (form_grows _ _ _ F) as X; destruct (canon (win name)); [congruence|cbn in X; lia]).
  destruct (whole_outcome sgn vol b2 out unsafe r2 out) as [Y2 _].
  - exact Ho.
  - apply ascii_wf, Forall_forall. intros c Hc0. specialize (Po c Hc0). lia.
  - apply Forall_forall. intros c Hc0. specialize (Po c Hc0). lia.
  - exact L2.
  - rewrite Wo, C2. exact F2.
  - rewrite Wo, C2. intro X. exfalso. apply (form_novol _ _ _ F); [|exact X]. intro Xv. apply win_vol in Xv. contradiction.
  - rewrite Wo, C2 in Y2. destruct (Y2 A2) as (_ & _ & S3). eexists. apply S3. rewrite skipn_length. lia.
Qed.

(** "Volume{1}\a" becomes \\?\Volume{1}\a, and that \\?\UNC\Volume{1}\a, another place. *)
Theorem C83_volume_refuted :
  WGetPlatformFilename true none (ones 16) (p_vol ++ [49; 125; 92; 97]) false = Ok ((p_uni ++ p_vol ++ [49; 125; 92; 97]) ++ [0], true) /\
  WGetPlatformFilename true none (ones 20) (p_uni ++ p_vol ++ [49; 125; 92; 97]) false = Ok ((p_unc ++ p_vol ++ [49; 125; 92; 97]) ++ [0], true).
Proof. vm_compute. repeat split. Qed.

(** "c:/a", "\\s/b", "\??\d:\x", "\\?\s", "a/b" *)
Example C83_ex :
  WGetPlatformFilename true none (ones 10) [99; 58; 47; 97] false = Ok (p_uni ++ [67; 58; 92; 97] ++ [0; 1], true) /\
  WGetPlatformFilename true none (ones 12) [92; 92; 115; 47; 98] false = Ok (p_unc ++ [115; 92; 98] ++ [0], true) /\
  WGetPlatformFilename true none (ones 9) [92; 63; 63; 92; 100; 58; 92; 120] false = Ok (p_uni ++ [68; 58; 92; 120] ++ [0], true) /\
  WGetPlatformFilename true none (ones 10) [92; 92; 63; 92; 115] false = Ok (p_unc ++ [115] ++ [0], true) /\
  WGetPlatformFilename true none (ones 4) [97; 47; 98] false = Ok ([97; 92; 98; 0], true).
Proof. vm_compute. repeat split. Qed.

Print Assumptions C81_safe.
Print Assumptions C81_exact_fit_refuted.
Print Assumptions C82_accepts.
Print Assumptions C82_relative.
Print Assumptions C83_text.
Print Assumptions C83_idempotent.
