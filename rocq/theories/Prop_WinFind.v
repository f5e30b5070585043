(** C136: Dir::Open on Windows. *)
From Coq Require Import String Ascii.
From Verif Require Import Base S_Utf8 M_Utf8 P_Utf8 S_Path M_Path P_MixedVar P_Path S_WinPath M_WinPath P_WinPath Prop_WinPath P_WinAbs Prop_WinAbs P_WinFile P_WinDir Prop_WinDir P_Dir P_WinLinks M_WinFind.
Open Scope N_scope.
Open Scope list_scope.
Notation length := List.length.

Lemma enc_shorter cps : (length (text enc16 cps) <= length (text enc8 cps))%nat.
Proof.
  induction cps as [|c cps IH]; [apply le_n|]. change (text enc16 (c :: cps)) with (enc16 c ++ text enc16 cps). change (text enc8 (c :: cps)) with (enc8 c ++ text enc8 cps).
  rewrite !app_length. assert (length (enc16 c) <= length (enc8 c))%nat; [|lia].
  unfold enc16, enc8. destruct (N.ltb_spec c 65536), (N.ltb_spec c 128), (N.ltb_spec c 2048); cbn [List.length]; try lia.
Qed.

Lemma good_app cps c : good_text cps -> cps <> [] -> allowed c -> good_text (cps ++ [c]).
Proof. intros [A B] H C. split; [apply Forall_app; split; [exact A|constructor; [exact C|constructor]]|]. destruct cps; [congruence|exact B]. Qed.

(** What comes after the absolute name is known. *)
Lemma pattern_of sgn vol g2 g3 cwd gd gw name want r cps : WGetAbsoluteFilename sgn vol g2 g3 cwd gd None name true = Ok (r, true) ->
  cstr r = Ok want -> length r = N.to_nat 8192 -> length gw = N.to_nat 8192 -> (length want + 2 <= N.to_nat 8192)%nat ->
  good_text cps -> cps <> [] -> want = text enc8 cps ->
  exists rest, WDir_Pattern sgn vol g2 g3 cwd gd gw name = Ok (Some (text enc16 cps ++ 42 :: 0 :: rest)) /\ length (text enc16 cps ++ 42 :: 0 :: rest) = length gw.
Proof.
  intros E Ec Lr Lg Cap G Hc Ew. unfold WDir_Pattern. rewrite E. cbn [bind negb]. rewrite Ec. cbn [bind]. cbv zeta.
  destruct (Nat.leb_spec (N.to_nat 8191) (length want)) as [X|_]; [lia|].
  destruct (P_WinLinks.cstr_inv r want Ec) as (q & -> & _). rewrite app_length in Lr. cbn [List.length] in Lr. destruct q as [|x q]; [cbn [List.length] in Lr; lia|].
  rewrite wr_mid. cbn [bind]. replace (length want + 1)%nat with (length (want ++ [42])) by (rewrite app_length; reflexivity).
  change (want ++ 42 :: x :: q) with (want ++ [42] ++ x :: q). rewrite app_assoc, wr_mid. cbn [bind].
  assert (Ef : firstn (length want + 2) ((want ++ [42]) ++ 0 :: q) = (want ++ [42]) ++ [0]).
  { replace (length want + 2)%nat with (length ((want ++ [42]) ++ [0])) by (rewrite !app_length; cbn [List.length]; lia).
    change (0 :: q) with ([0] ++ q). rewrite (app_assoc (want ++ [42]) [0] q). rewrite firstn_app, firstn_all, Nat.sub_diag. cbn [firstn]. apply app_nil_r. }
  rewrite Ef. assert (A42 : allowed 42) by (unfold allowed; rewrite N.mod_small by lia; lia).
  assert (E8 : want ++ [42] = text enc8 (cps ++ [42])) by (rewrite P_WinFile.text_app, Ew; reflexivity).
  assert (E16 : text enc16 (cps ++ [42]) = text enc16 cps ++ [42]) by (rewrite P_WinFile.text_app; reflexivity).
  pose proof (enc_shorter cps) as Sh. rewrite <- Ew in Sh.
  rewrite E8, from8_all; [|apply good_app; assumption|rewrite E16, app_length; cbn [List.length]; lia]. cbn [bind]. rewrite E16, <- app_assoc. cbn [app].
  eexists. split; [reflexivity|]. rewrite app_length. cbn [List.length]. rewrite skipn_length, app_length. cbn [List.length]. lia.
Qed.

Definition nostar (s : bytes) : Prop := ~ In 42 s.

Lemma nostar_app a b : nostar a -> nostar b -> nostar (a ++ b).
Proof. intros A B X. apply in_app_or in X. destruct X; [exact (A H)|exact (B H)]. Qed.

Lemma accepts_nostar sgn name out : accepts sgn name out -> nostar out.
Proof.
  intros (_ & r & F & A & _). assert (R : nostar r).
  { intro X. rewrite Forall_forall in A. destruct (A 42 X) as (_ & _ & Y & _). apply Y. cbn. tauto. }
  assert (U : forall u, map upper u = p_unc -> nostar u).
  { intros u Eu X. apply (in_map upper) in X. rewrite Eu in X. cbv in X. intuition discriminate. }
  assert (Lt : forall c, letter c -> nostar (upper c :: 58 :: [])).
  { intros c Lc [X|[X|[]]]; [|discriminate]. unfold letter in Lc. unfold upper in X. destruct (N.leb_spec 97 c), (N.leb_spec c 122); cbn [andb] in X; lia. }
  assert (P1 : nostar p_uni) by (cbv; intuition discriminate). assert (P2 : nostar p_unc) by (cbv; intuition discriminate).
  destruct F as [c r L|c r L|u r U' D|u c r U' L|r D NU ND|r NU ND|r|t NN NV D].
  - apply nostar_app; [exact P1|]. apply (nostar_app [upper c; 58] r); [exact (Lt c L)|exact R].
  - apply nostar_app; [exact P1|]. apply (nostar_app [upper c; 58] r); [exact (Lt c L)|exact R].
  - apply nostar_app; [exact (U u U')|exact R].
  - apply nostar_app; [exact (U u U')|]. apply (nostar_app [upper c; 58] r); [exact (Lt c L)|exact R].
  - apply nostar_app; [exact P2|exact R].
  - apply nostar_app; [exact P2|]. intro X. apply R. right. right. exact X.
  - apply nostar_app; [exact P1|exact R].
  - exact R.
Qed.

Lemma nostar_Forall s : nostar s <-> Forall (fun c => c <> 42) s.
Proof. unfold nostar. rewrite Forall_forall. split; [intros H x Hx ->; exact (H Hx)|intros H X; exact (H 42 X eq_refl)]. Qed.

Lemma wsplit_nostar s : nostar s -> Forall nostar (wsplit s).
Proof.
  induction s as [|c s IH]; intro H; [constructor; [intros []|constructor]|]. cbn [wsplit].
  assert (IH' := IH (fun X => H (or_intror X))). destruct (c =? 92); [constructor; [intros []|exact IH']|].
  destruct (wsplit s) as [|h t]; [constructor; [|constructor]; intros [X|[]]; apply H; left; exact X|].
  constructor; [|exact (Forall_inv_tail IH')]. intros [X|X]; [apply H; left; exact X|exact (Forall_inv IH' X)].
Qed.

Lemma wrender_nostar st : Forall nostar st -> nostar (wrender st).
Proof.
  induction st as [|c st IH]; intro F; [intros []|]. unfold wrender. cbn [flat_map]. apply (nostar_app (92 :: c)).
  - intros [X|X]; [discriminate|exact (Forall_inv F X)].
  - exact (IH (Forall_inv_tail F)).
Qed.

(** ** C136 *)

(** The directory named with a volume: FindFirstFileW is asked for everything in the directory the
    name leads to, and there is no other wildcard in the text. *)
Theorem C136_absolute : forall sgn vol g2 g3 cwd gd gw name v p cps,
  length g2 = S LIM -> length g3 = S LIM -> last g2 0 <> 92 -> length gd = N.to_nat 8192 -> length gw = N.to_nat 8192 ->
  wf_utf8 name -> Forall (fun c => 0 < c < 256) name -> accepts sgn name (v ++ p) -> volume v -> rooted p -> (length v + length p + 3 <= LIM)%nat ->
  let dir := v ++ wrender (resolve [] (wsplit p)) ++ [92] in
  (length dir + 2 <= N.to_nat 8192)%nat -> good_text cps -> dir = text enc8 cps ->
  ~ In 42 dir /\ exists rest, WDir_Pattern sgn vol g2 g3 cwd gd gw name = Ok (Some (text enc16 cps ++ 42 :: 0 :: rest)) /\ length (text enc16 cps ++ 42 :: 0 :: rest) = length gw.
Proof.
  intros sgn vol g2 g3 cwd gd gw name v p cps L2 L3 Z Ld Lg W C A V R Len dir Cap G E. split.
  - pose proof (accepts_nostar _ _ _ A) as Ns. apply nostar_app; [intro X; apply Ns; apply in_or_app; left; exact X|]. apply nostar_app; [|intros [X|[]]; discriminate].
    apply wrender_nostar. apply P_Dir.resolve_forall; [constructor|]. apply wsplit_nostar. intro X. apply Ns. apply in_or_app. right. exact X.
  - destruct (C84_absolute sgn vol g2 g3 cwd gd None name v p true L2 L3 Z W C A V R Len) as (r & E1 & E2 & E3); [fold dir; lia|].
    apply (pattern_of sgn vol g2 g3 cwd gd gw name dir r cps); try assumption; [rewrite E3; exact Ld|].
    intros ->. unfold dir in E. cbn in E. destruct v; [destruct (wrender _)|]; discriminate.
Qed.

(** The same for a directory named from the current directory. *)
Theorem C136_relative : forall sgn vol g2 g3 gd gw name v d cps,
  length g2 = S LIM -> length g3 = S LIM -> last g2 0 <> 92 -> length gd = N.to_nat 8192 -> length gw = N.to_nat 8192 ->
  wf_utf8 name -> Forall (fun c => 0 < c < 256) name -> accepts sgn name (win name) -> ~ begins_with [92; 92] (win name) -> proper (hd [] (wsplit (win name))) ->
  volume v -> rooted d -> ~ In 0 (v ++ d) -> ~ In 42 (v ++ d) -> Forall proper (wsplit d) -> (length v + length d + length name + 3 <= LIM)%nat ->
  let dir := v ++ wrender (wplace d (win name)) ++ [92] in
  (length dir + 2 <= N.to_nat 8192)%nat -> good_text cps -> dir = text enc8 cps ->
  ~ In 42 dir /\ exists rest, WDir_Pattern sgn vol g2 g3 (Some (v ++ d)) gd gw name = Ok (Some (text enc16 cps ++ 42 :: 0 :: rest)) /\ length (text enc16 cps ++ 42 :: 0 :: rest) = length gw.
Proof.
  intros sgn vol g2 g3 gd gw name v d cps L2 L3 Z Ld Lg W C A NN Pn V R Nz Ns Pd Len dir Cap G E. split.
  - pose proof (accepts_nostar _ _ _ A) as Nn. apply nostar_app; [intro X; apply Ns; apply in_or_app; left; exact X|]. apply nostar_app; [|intros [X|[]]; discriminate].
    apply wrender_nostar. assert (Nd : Forall nostar (wsplit d)) by (apply wsplit_nostar; intro X; apply Ns; apply in_or_app; right; exact X).
    pose proof (wsplit_nostar _ Nn) as Nw. unfold wplace.
    destruct (hd 0 (win name) =? 92); (apply P_Dir.resolve_forall; [first [constructor|apply P_Dir.resolve_forall; [constructor|exact Nd]]|exact Nw]).
  - destruct (C84_relative_cwd sgn vol g2 g3 gd name v d true L2 L3 Z W C A NN Pn V R Nz Pd Len) as (r & E1 & E2 & E3); [fold dir; lia|].
    apply (pattern_of sgn vol g2 g3 (Some (v ++ d)) gd gw name dir r cps); try assumption; [rewrite E3; exact Ld|].
    intros ->. unfold dir in E. cbn in E. destruct v; [destruct (wrender _)|]; discriminate.
Qed.

(** The current directory itself cannot be opened, nor the one above it: Dir::Open refuses "." and
    "..", and names that begin with them. *)
Theorem C136_dots_refuted : forall sgn n, In n [chars "."; chars ".."; chars "./z"; chars "../z"] ->
  WDir_Pattern sgn none blank blank (Some (chars "\\?\C:\x\y")) blank blank n = Ok None.
Proof. intros sgn n H. destruct sgn; cbn [In] in H; decompose [or] H; subst; try contradiction; vm_compute; reflexivity. Qed.

Example C136_ex : exists r1 r2 r3,
  WDir_Pattern true none blank blank (Some (chars "\\?\C:\x\y")) blank (repeat 7 (N.to_nat 8192)) (chars "a/./b/..") = Ok (Some (chars "\\?\C:\x\y\a\*" ++ 0 :: r1)) /\
  WDir_Pattern true none blank blank None blank blank (chars "c:") = Ok (Some (chars "\\?\C:\*" ++ 0 :: r2)) /\
  WDir_Pattern false none blank blank None blank blank (chars "C:\" ++ [0xC3; 0xA9]) = Ok (Some (chars "\\?\C:\" ++ [233; 92; 42; 0] ++ r3)) /\
  WDir_Pattern true none blank blank None blank blank (chars "C:\*") = Ok None.
Proof. do 3 eexists. repeat split; vm_compute; reflexivity. Qed.

Print Assumptions C136_absolute.
Print Assumptions C136_relative.
Print Assumptions C136_dots_refuted.
