(** Final theorems about volume names and the parts of names on Windows (C114, C115). *)
From Verif Require Import Base S_Utf8 S_Path S_WinPath M_Path M_WinPath M_WinVolume P_MixedVar P_Path P_WinPath.
Open Scope N_scope.

(** ** C114 *)

(** A registry as Windows keeps it: the values are named \DosDevices\C: , \??\Volume{...} or #{...}. *)
Definition real_value (n : bytes) : Prop :=
  begins_with [92; 68; 111; 115; 68; 101; 118; 105; 99; 101; 115; 92] n \/ begins_with [92; 63; 63; 92] n \/ begins_with [35] n.
Definition real (reg : registry) : Prop := Forall (fun v => real_value (fst v)) reg.

Lemma enum_real reg d : real reg -> enum reg d = None.
Proof.
  induction 1 as [|[n d2] reg H R IH]; [reflexivity|]. cbn [enum]. destruct (_ && _)%bool; [|reflexivity].
  replace (starts false s_dosdevice n) with false; [exact IH|].
  destruct H as [[r E]|[[r E]|[r E]]]; cbn [fst] in E; subst n; reflexivity.
Qed.

Lemma resolve_ext f g : (forall x, f x = g x) -> forall b y, resolve_volume f b y = resolve_volume g b y.
Proof.
  intros H b y. unfold resolve_volume. destruct (find_bs (S (length b)) b 4) as [r3| |]; [cbn [bind]|reflexivity|reflexivity].
  destruct (pre false b 0 (s_uni ++ s_vol)) as [v| |]; [cbn [bind]|reflexivity|reflexivity].
  destruct v, r3 as [k|]; try reflexivity. destruct (wr b 1 63) as [b1| |]; [cbn [bind]|reflexivity|reflexivity].
  destruct (cstr b1) as [name| |]; [cbn [bind]|reflexivity|reflexivity]. rewrite H. reflexivity.
Qed.

Lemma whole_ext f g : (forall x, f x = g x) -> forall sgn b name unsafe,
  WGetPlatformFilename sgn f b name unsafe = WGetPlatformFilename sgn g b name unsafe.
Proof.
  intros H sgn b name unsafe. unfold WGetPlatformFilename. destruct (_ <? _)%nat; [reflexivity|].
  destruct (M_Utf8.ConvertToUTF8 _ _ _ _) as [[[[b1|] s1] l1]| |]; cbn [bind]; try reflexivity.
  destruct (cstr b1) as [s| |]; cbn [bind]; try reflexivity. destruct (_ || _)%bool; [reflexivity|].
  destruct (slashes_to_bs _ _ _) as [b2| |]; cbn [bind]; try reflexivity.
  unfold gpf_rest. destruct (pre false b2 0 s_nt) as [nt| |]; cbn [bind]; try reflexivity.
  destruct (if nt then wr b2 1 bsl else Ok b2) as [b3| |]; cbn [bind]; try reflexivity.
  destruct (pre true b3 0 s_dev) as [d1| |]; cbn [bind]; try reflexivity.
  destruct (if d1 then Ok true else pre false b3 0 s_dot) as [d2| |]; cbn [bind]; try reflexivity.
  destruct d2; [reflexivity|]. destruct (pre true b3 0 s_unc) as [unc| |]; cbn [bind]; try reflexivity.
  destruct (if unc then Ok true else pre false b3 0 s_uni) as [uni| |]; cbn [bind]; try reflexivity.
  destruct (drive b3 _) as [[[b4 x2] drv]| |]; cbn [bind]; try reflexivity.
  destruct (scan _ _ _ _ _) as [[last|]| |]; cbn [bind]; try reflexivity.
  destruct (device _ _ _) as [[|]| |]; cbn [bind]; try reflexivity.
  unfold normalise. destruct drv; [|reflexivity]. destruct uni; [now rewrite (resolve_ext f g H)|].
  destruct (_ <? _)%nat; [reflexivity|]. destruct (memmove b4 4 0 _) as [b5| |]; cbn [bind]; try reflexivity.
  destruct (blit b5 0 s_uni) as [b6| |]; cbn [bind]; try reflexivity. now rewrite (resolve_ext f g H).
Qed.

(** REFUTED: with the registry of a Windows system no volume is ever turned into a drive letter: every
    call does what it would do without any registry. *)
Theorem C114_never_refuted : forall reg sgn b name unsafe, real reg ->
  WGetPlatformFilename sgn (lookup reg) b name unsafe = WGetPlatformFilename sgn (fun _ => None) b name unsafe.
Proof.
  intros reg sgn b name unsafe R. apply whole_ext. intro x. unfold lookup. destruct (query reg x) as [d|]; [|reflexivity].
  apply enum_real. exact R.
Qed.

Lemma find_bs_at p g r : ~ In 92 g -> ~ In 0 g -> forall fuel, (length g < fuel)%nat ->
  find_bs fuel (p ++ g ++ 92 :: r) (length p) = Ok (Some (length p + length g)%nat).
Proof.
  revert p. induction g as [|c g IH]; intros p H Z fuel L; (destruct fuel as [|fuel]; [lia|]); cbn [find_bs].
  - cbn [app length]. unfold rd. rewrite nth_error_app2, Nat.sub_diag by lia. cbn. f_equal. f_equal. lia.
  - unfold rd. rewrite nth_error_app2, Nat.sub_diag by lia. cbn [app nth_error bind].
    destruct (N.eqb_spec c bsl) as [X|_]; [exfalso; apply H; left; exact X|].
    destruct (N.eqb_spec c 0) as [X|_]; [exfalso; apply Z; left; exact X|].
    specialize (IH (p ++ [c]) (fun X => H (or_intror X)) (fun X => Z (or_intror X)) fuel ltac:(cbn in L; lia)).
    rewrite app_length in IH. cbn [length] in IH. rewrite <- app_assoc in IH. cbn [app] in IH. rewrite Nat.add_1_r in IH.
    rewrite IH. cbn [length]. f_equal. f_equal. lia.
Qed.

Lemma nz_not_in (t : bytes) : nz t -> ~ In 0 t.
Proof. intros H X. rewrite Forall_forall in H. exact (H 0 X eq_refl). Qed.

(** What becomes of \\?\Volume{g\rest when the volume is found; [y] is the length without prefix. *)
Lemma resolve_found vol g rest q d : let name := p_vol ++ g ++ 92 :: rest in
  nz name -> ~ In 92 g -> vol ([92; 63; 63; 92] ++ name) = Some d ->
  resolve_volume vol ((p_uni ++ name) ++ 0 :: q) (length name) =
  if (length rest <? 2)%nat then UB
  else Ok (p_uni ++ d :: 58 :: firstn (length rest - 2) (92 :: rest) ++ skipn (length rest) (name ++ 0 :: q)).
Proof.
  intros name Z Ng V. unfold resolve_volume.
  assert (Zg : ~ In 0 (p_vol ++ g)).
  { apply nz_not_in. unfold name in Z. rewrite app_assoc in Z. apply Forall_app in Z. apply Z. }
  assert (Nv : ~ In 92 (p_vol ++ g)).
  { intro X. apply in_app_or in X. destruct X as [X|X]; [|exact (Ng X)]. cbn in X. intuition discriminate. }
  assert (EF : find_bs (S (length ((p_uni ++ name) ++ 0 :: q))) ((p_uni ++ name) ++ 0 :: q) 4 = Ok (Some (4 + length (p_vol ++ g))%nat)).
  { pose proof (find_bs_at p_uni (p_vol ++ g) (rest ++ 0 :: q) Nv Zg (S (length ((p_uni ++ name) ++ 0 :: q)))) as F.
    unfold name. rewrite <- !app_assoc. unfold name in F. rewrite <- !app_assoc in F. cbn [app] in F |- *. apply F.
    rewrite !app_length. cbn [length]. rewrite !app_length. cbn [length]. lia. }
  rewrite EF. cbn [bind].
  assert (ZU : nz (p_uni ++ name)) by (apply Forall_app; split; [repeat constructor; discriminate|exact Z]).
  rewrite pre_text by (try lia; repeat constructor; discriminate). cbn [skipn bind].
  replace (starts false (s_uni ++ s_vol) (p_uni ++ name)) with true by reflexivity.
  change ((p_uni ++ name) ++ 0 :: q) with (92 :: 92 :: 63 :: 92 :: (name ++ 0 :: q)).
  rewrite wr_split by (cbn; lia). cbn [firstn skipn app bind].
  assert (EC : cstr (92 :: 63 :: 63 :: 92 :: name ++ 0 :: q) = Ok ([92; 63; 63; 92] ++ name)).
  { apply (cstr_app ([92; 63; 63; 92] ++ name) q). apply Forall_app. split; [repeat constructor; discriminate|exact Z]. }
  rewrite EC. cbn [bind]. rewrite V.
  assert (EN : exists n2, name ++ 0 :: q = 86 :: 111 :: n2) by (eexists; reflexivity). destruct EN as [n2 EN].
  assert (LN : length name = (8 + length g + length rest)%nat).
  { unfold name. rewrite !app_length. change (length p_vol) with 7%nat. cbn [length]. lia. }
  assert (LV : length (p_vol ++ g) = (7 + length g)%nat) by (rewrite app_length; reflexivity).
  rewrite EN. rewrite wr_split by (cbn; lia). cbn [firstn skipn app bind].
  rewrite wr_split by (cbn; lia). cbn [firstn skipn app bind]. rewrite LV, LN.
  destruct (Nat.ltb_spec (length rest) 2) as [L|L].
  - rewrite (proj2 (Nat.ltb_lt _ _)) by lia. reflexivity.
  - rewrite (proj2 (Nat.ltb_ge _ _)) by lia. replace (8 + length g + length rest + 1 - (4 + (7 + length g)))%nat with (length rest - 2)%nat by lia.
    assert (L2 : S (S (length n2)) = (9 + length g + length rest + length q)%nat).
    { change (S (S (length n2))) with (length (86 :: 111 :: n2)). rewrite <- EN, app_length, LN. cbn [length]. lia. }
    rewrite memmove_in by (cbn [length]; lia). cbn [bind firstn].
    replace (6 + (length rest - 2))%nat with (S (S (S (S (length rest))))) by lia. cbn [skipn app].
    rewrite wr_split by (cbn; lia). cbn [firstn skipn app].
    assert (ES : skipn (7 + length g) (d :: 58 :: n2) = 92 :: rest ++ 0 :: q).
    { change (skipn (7 + length g) (d :: 58 :: n2)) with (skipn (7 + length g) (86 :: 111 :: n2)). rewrite <- EN. unfold name.
      rewrite app_assoc, <- app_assoc, <- LV. rewrite skipn_app, skipn_all, Nat.sub_diag. reflexivity. }
    change (skipn (4 + (7 + length g)) (92 :: 63 :: 63 :: 92 :: d :: 58 :: n2)) with (skipn (7 + length g) (d :: 58 :: n2)).
    rewrite ES. change (92 :: rest ++ 0 :: q) with ((92 :: rest) ++ 0 :: q). rewrite firstn_app.
    replace (length rest - 2 - length (92%N :: rest))%nat with 0%nat by (cbn [length]; lia). cbn [firstn]. rewrite app_nil_r.
    replace (skipn (length rest) (86 :: 111 :: n2)) with (skipn (length rest) (d :: 58 :: n2)); [reflexivity|].
    destruct (length rest) as [|[|k]]; [lia|lia|]. reflexivity.
Qed.

Lemma after_volume sgn vol unsafe r q y :
  gpf_after sgn vol unsafe ((p_vol ++ r) ++ 0 :: q) y =
  checked sgn ((p_vol ++ r) ++ 0 :: q) y 0 (normalise vol ((p_vol ++ r) ++ 0 :: q) y false false true).
Proof.
  rewrite gpf_after_text.
  replace (starts true s_dev (p_vol ++ r)) with false by reflexivity. replace (starts false s_dot (p_vol ++ r)) with false by reflexivity.
  replace (starts true s_unc (p_vol ++ r)) with false by reflexivity. replace (starts false s_uni (p_vol ++ r)) with false by reflexivity. cbn [orb].
  pose proof (drive_none [] (p_vol ++ r) q) as Dr. cbn [app length] in Dr. change ([] ++ p_vol ++ r) with (p_vol ++ r) in Dr.
  match type of Dr with _ -> drive ?b _ = _ => change ((p_vol ++ r) ++ 0 :: q) with b end.
  rewrite Dr by (intros c r' E; discriminate E). cbn [bind].
  replace (starts false s_vol _) with true by reflexivity. reflexivity.
Qed.

(** REFUTED: and if the registry did know the volume, its name would not lead to the file.  Two
    characters of the rest and the terminator are not moved; what follows instead is left over from
    the text that was there before.  With less than two characters too many are moved. *)
Theorem C114_cut_refuted : forall sgn vol b g rest d unsafe b1,
  let name := p_vol ++ g ++ 92 :: rest in
  wf_utf8 name -> nz name -> ~ In 47 name -> ~ In 92 g ->
  WGetPlatformFilename sgn (fun _ => None) b name unsafe = Ok (b1, true) ->
  vol ([92; 63; 63; 92] ++ name) = Some d ->
  ((2 <= length rest)%nat -> exists q, WGetPlatformFilename sgn vol b name unsafe =
     Ok (p_uni ++ d :: 58 :: firstn (length rest - 2) (92 :: rest) ++ skipn (length rest) name ++ 0 :: q, true)) /\
  ((length rest < 2)%nat -> WGetPlatformFilename sgn vol b name unsafe = UB).
Proof.
  intros sgn vol b g rest d unsafe b1 name W Z N47 Ng E V.
  assert (Hne : name <> []) by discriminate.
  assert (L : (length name < length b)%nat).
  { destruct (Nat.lt_ge_cases (length name) (length b)) as [L|L]; [exact L|]. unfold WGetPlatformFilename in E.
    destruct (Nat.ltb_spec (length b) (length name + 1)); [discriminate E|lia]. }
  rewrite wgpf_good in E by assumption. rewrite wgpf_good by assumption.
  rewrite (win_id name N47) in *. change (canon name) with name in *.
  set (q0 := skipn (S (length name)) b) in *.
  unfold name in E at 1. rewrite after_volume in E. fold name in E. unfold name at 1 4. rewrite after_volume. fold name.
  unfold checked in *.
  destruct (scan sgn (length name - 0) (name ++ 0 :: q0) 0 0) as [[last|]| |]; cbn [bind] in *; try discriminate E.
  destruct (device (name ++ 0 :: q0) last (length name)) as [[|]| |]; cbn [bind] in *; try discriminate E.
  unfold normalise in *. rewrite app_length in *. cbn [length] in *.
  destruct (Nat.ltb_spec (length name + S (length q0)) (length name + 4)) as [X|X]; [discriminate E|].
  pose proof (insert_ok [] name q0 s_uni) as I. cbn [app length Nat.add] in I. change (length s_uni) with 4%nat in I.
  destruct (Nat.lt_ge_cases (length q0) 4) as [Y|Y].
  { exfalso. rewrite memmove_out in E; [discriminate E| |]; rewrite app_length; cbn [length]; lia. }
  specialize (I Y). destruct (memmove (name ++ 0 :: q0) 4 0 (length name + 1)) as [b2| |]; try discriminate I. cbn [bind] in I |- *. rewrite I. cbn [bind].
  change (s_uni ++ name) with (p_uni ++ name).
  pose proof (resolve_found vol g rest (skipn 4 q0) d Z Ng V) as R. fold name in R.
  rewrite R. clear R. split; intro K.
  - rewrite (proj2 (Nat.ltb_ge _ _)) by lia. cbn [bind].
    assert (length rest <= length name)%nat by (unfold name; rewrite !app_length; cbn [length]; lia).
    exists (skipn 4 q0). do 3 f_equal. do 5 f_equal. rewrite skipn_app. replace (length rest - length name)%nat with 0%nat by lia. reflexivity.
  - rewrite (proj2 (Nat.ltb_lt _ _)) by lia. reflexivity.
Qed.

Example C114_ex : (* Volume{1}\abcd *)
  let name := p_vol ++ [49; 125; 92; 97; 98; 99; 100] in
  let reg := [([92; 63; 63; 92] ++ p_vol ++ [49; 125], [7]); ([92; 68; 111; 115; 68; 101; 118; 105; 99; 101; 115; 92; 67; 58], [7])] in
  real reg /\
  WGetPlatformFilename true (lookup reg) (repeat 1 30) name false = Ok (p_uni ++ name ++ 0 :: repeat 1 11, true) /\
  (* a registry with a name as the code wants it *)
  WGetPlatformFilename true (lookup [([92; 63; 63; 92] ++ name, [7]); (s_dosdevice ++ [67], [7])]) (repeat 1 30) name false =
    Ok (p_uni ++ [67; 58; 92; 97; 109; 101; 123; 49; 125; 92; 97; 98; 99; 100; 0] ++ repeat 1 11, true).
Proof.
  cbv zeta. split; [|split; vm_compute; reflexivity].
  constructor; [right; left; eexists; reflexivity|]. constructor; [left; eexists; reflexivity|constructor].
Qed.

(** ** C115 *)

(** The beginning of a name: prefix, volume (a drive or a host), and path. *)
Inductive cut_volume (f : bytes) : bytes -> bytes -> bytes -> Prop :=
| c_unc u h p : f = u ++ h ++ p -> map upper u = p_unc -> ~ In 92 h -> (p = [] \/ exists r, p = 92 :: r) -> cut_volume f u h p
| c_uni h p : f = p_uni ++ h ++ p -> ~ begins p_unc f -> ~ In 92 h -> (p = [] \/ exists r, p = 92 :: r) -> cut_volume f p_uni h p
| c_none : ~ begins_with p_uni f -> cut_volume f [] [] f.

(** A path ends in a file name without backslashes. *)
Definition wparts (f p w : bytes) : Prop := f = p ++ w /\ (p = [] \/ exists v, p = v ++ [92]) /\ ~ In 92 w.

Lemma to_bs_ok h : ~ In 92 h -> forall ext p, (ext = [] \/ exists r, ext = 92 :: r) ->
  to_bs (length (h ++ ext)) (p ++ h ++ ext) (length p) = (length p + length h)%nat.
Proof.
  induction h as [|c h IH]; intros H ext p E.
  - cbn [app length]. rewrite Nat.add_0_r. destruct E as [-> |[r ->]]; [reflexivity|]. cbn [length to_bs]. rewrite app_nth2, Nat.sub_diag by lia. reflexivity.
  - cbn [app length to_bs]. rewrite app_nth2, Nat.sub_diag by lia. cbn [nth]. destruct (N.eqb_spec c bsl) as [X|_]; [exfalso; apply H; left; exact X|].
    specialize (IH (fun X => H (or_intror X)) ext (p ++ [c]) E). rewrite (app_length p [c]) in IH. cbn [length] in IH. rewrite <- app_assoc in IH. cbn [app] in IH.
    rewrite Nat.add_1_r in IH. rewrite IH. lia.
Qed.

Lemma back_bs_ok a p w : (p = [] \/ exists v, p = v ++ [92]) -> ~ In 92 w -> forall k, (k <= length w)%nat ->
  back_to_bs (a ++ p ++ w) (length a) (length a + length p + k) = (length a + length p)%nat.
Proof.
  intros P W. induction k as [|k IH]; intro Hk.
  - rewrite Nat.add_0_r. destruct P as [-> |[v ->]].
    + cbn [length]. rewrite Nat.add_0_r. destruct (length a) as [|n]; [reflexivity|]. cbn [back_to_bs]. now rewrite Nat.ltb_irrefl.
    + rewrite app_length. cbn [length]. replace (length a + (length v + 1))%nat with (S (length a + length v)) by lia. cbn [back_to_bs].
      rewrite (proj2 (Nat.ltb_lt _ _)) by lia. rewrite app_nth2 by lia. replace (length a + length v - length a)%nat with (length v) by lia.
      rewrite <- app_assoc, app_nth2, Nat.sub_diag by lia. reflexivity.
  - rewrite Nat.add_succ_r. cbn [back_to_bs]. rewrite (proj2 (Nat.ltb_lt _ _)) by lia. rewrite !app_nth2 by lia.
    replace (length a + length p + k - length a - length p)%nat with k by lia.
    destruct (N.eqb_spec (nth k w 0) bsl) as [E|_]; [|apply IH; lia]. exfalso. apply W. change 92 with bsl. rewrite <- E. apply nth_In. lia.
Qed.

Lemma starts_not ci p t : starts ci p t <> true -> starts ci p t = false.
Proof. destruct (starts ci p t); congruence. Qed.

Lemma cut_numbers f u h p : cut_volume f u h p -> f = u ++ h ++ p /\
  (if starts true s_unc f then 8%nat else if starts false s_uni f then 4%nat else 0%nat) = length u /\
  (if (length u =? 0)%nat then 0%nat else to_bs (length f - length u) f (length u)) = (length u + length h)%nat.
Proof.
  intros [u' h' p' E M H P|h' p' E B H P|B].
  - split; [exact E|]. assert (Lu : length u' = 8%nat) by (rewrite <- (map_length upper), M; reflexivity).
    assert (S : starts true s_unc f = true).
    { apply starts_ci. exists u', (h' ++ p'). split; [exact E|]. rewrite M. reflexivity. }
    rewrite S, Lu. split; [reflexivity|]. cbn [Nat.eqb]. rewrite <- Lu. rewrite E. rewrite app_length.
    replace (length u' + length (h' ++ p') - length u')%nat with (length (h' ++ p')) by lia. apply to_bs_ok; assumption.
  - split; [exact E|]. rewrite (starts_not true s_unc f) by (intro X; apply starts_ci in X; exact (B X)).
    assert (S : starts false s_uni f = true) by (rewrite E; reflexivity). rewrite S. split; [reflexivity|].
    cbn [p_uni length Nat.eqb]. rewrite E. rewrite app_length. change (length p_uni) with 4%nat.
    replace (4 + length (h' ++ p') - 4)%nat with (length (h' ++ p')) by lia. exact (to_bs_ok h' H p' p_uni P).
  - split; [reflexivity|].
    assert (S : starts false s_uni f = false) by (apply starts_not; intro X; apply starts_cs in X; exact (B X)).
    assert (S2 : starts true s_unc f = false).
    { apply starts_not. intro X. apply starts_ci in X. destruct X as (u1 & r & E & M). apply B. exists (skipn 4 u1 ++ r).
      rewrite E, app_assoc. f_equal. rewrite <- (firstn_skipn 4 u1) at 1. f_equal.
      destruct u1 as [|a [|b [|c [|e u1]]]]; try discriminate M. cbn [map s_unc] in M. injection M as M1 M2 M3 M4 _. cbn [firstn].
      assert (U : forall x y, upper x = y -> y < 65 \/ 90 < y < 97 -> x = y).
      { intros x y Hx Hy. unfold upper in Hx. destruct (_ && _)%bool eqn:K; [|exact Hx]. apply andb_true_iff in K. destruct K as [K1 K2]. apply N.leb_le in K1, K2. lia. }
      change (upper 92) with 92 in *. change (upper 63) with 63 in *.
      rewrite (U a 92), (U b 92), (U c 63), (U e 92) by (assumption || lia). reflexivity. }
    rewrite S, S2. split; reflexivity.
Qed.

(** The positions a name is cut at: behind the prefix, behind the volume, in front of the file name,
    and of its first and last extension.  Every name has exactly one such cut. *)
Theorem C115_parts : forall f u h p d w s1 e1 s2 e2, cut_volume f u h p -> wparts p d w -> first_ext w s1 e1 -> last_ext w s2 e2 ->
  let n := (length u + length h + length d)%nat in
  WGetPlatformFilenameInfo f = {| StartVolume := length u; StartPath := (length u + length h)%nat; StartFilename := n;
    StartExtension := (n + length s1)%nat; StartLastExtension := (n + length s2)%nat |}.
Proof.
  intros f u h p d w s1 e1 s2 e2 C (Ep & D & W) (Ew & S1 & E1) (E2 & L2) n.
  destruct (cut_numbers f u h p C) as (E & Ev & Epath). unfold WGetPlatformFilenameInfo. rewrite Ev, Epath.
  assert (Ef : f = (u ++ h) ++ d ++ w) by (rewrite E, Ep, app_assoc; reflexivity).
  assert (Lf : length f = (length (u ++ h) + length d + length w)%nat) by (rewrite Ef, !app_length; lia).
  pose proof (back_bs_ok (u ++ h) d w D W (length w) (le_n _)) as B. rewrite <- Lf, <- Ef in B. rewrite app_length in B, Lf.
  rewrite B. fold n.
  assert (Lu : length (u ++ h ++ d) = n) by (unfold n; rewrite !app_length; lia).
  assert (Ef2 : f = (u ++ h ++ d) ++ s1 ++ e1) by (rewrite Ef, Ew, !app_assoc; reflexivity).
  assert (Ed : to_dot (length f - n) f n = (n + length s1)%nat).
  { pose proof (to_dot_ok s1 S1 e1 (u ++ h ++ d) E1) as T. rewrite <- Ef2, Lu in T. rewrite <- T. f_equal. rewrite Ew in Lf. unfold n. lia. }
  rewrite Ed. f_equal. rewrite Ew in Lf. rewrite app_length in Lf.
  replace (length f - (n + length s1))%nat with (length e1) by (unfold n; lia).
  destruct L2 as [[-> L2]|[r [-> L2]]].
  - rewrite app_nil_r in E2. subst s2. assert (X : e1 = []).
    { destruct E1 as [-> |[r ->]]; [reflexivity|]. exfalso. apply L2. rewrite Ew. apply in_or_app. right. left. reflexivity. }
    subst e1. rewrite Ew, app_nil_r. reflexivity.
  - assert (X : exists a, e1 = a ++ 46 :: r /\ s2 = s1 ++ a).
    { clear - Ew E2 S1. rewrite Ew in E2. clear Ew. rename E2 into E. revert s2 E. induction s1 as [|c s1 IH]; intros s2 E; [exists s2; split; [exact E|reflexivity]|].
      destruct s2 as [|c2 s2]; cbn [app] in E; injection E as E1 E2.
      - exfalso. apply S1. left. exact E1.
      - destruct (IH (fun X => S1 (or_intror X)) s2 E2) as (a & Ea & Es). exists a. split; [exact Ea|]. cbn. congruence. }
    destruct X as (a & -> & ->). rewrite Ef2. rewrite (app_assoc (u ++ h ++ d) s1).
    replace (n + length s1)%nat with (length ((u ++ h ++ d) ++ s1)) by (rewrite app_length; lia).
    rewrite last_dot_ok by exact L2. rewrite !app_length in *. lia.
Qed.

Lemma wparts_exist f : exists p w, wparts f p w.
Proof.
  induction f as [|c f (p & w & E & P & W)]; [exists [], []; split; [reflexivity|]; split; [left; reflexivity|intros []]|].
  destruct P as [-> |[v ->]].
  - destruct (N.eq_dec c 92) as [->|Hc].
    + exists [92], f. split; [reflexivity|]. split; [right; exists []; reflexivity|]. rewrite E. exact W.
    + exists [], (c :: f). split; [reflexivity|]. split; [left; reflexivity|]. intros [X|X]; [congruence|]. apply W. cbn in E. rewrite <- E. exact X.
  - exists (c :: v ++ [92]), w. split; [rewrite E; reflexivity|]. split; [right; exists (c :: v); reflexivity|exact W].
Qed.

Lemma cut_bs t : exists h p, t = h ++ p /\ ~ In 92 h /\ (p = [] \/ exists r, p = 92 :: r).
Proof.
  induction t as [|c t (h & p & E & H & P)]; [exists [], []; repeat split; [intros []|left; reflexivity]|].
  destruct (N.eq_dec c 92) as [->|Hc]; [exists [], (92 :: t); repeat split; [intros []|right; eexists; reflexivity]|].
  exists (c :: h), p. split; [rewrite E; reflexivity|]. split; [|exact P]. intros [X|X]; [congruence|exact (H X)].
Qed.

(** Every name can be cut like that. *)
Theorem C115_all : forall f, exists u h p d w s1 e1 s2 e2, cut_volume f u h p /\ wparts p d w /\ first_ext w s1 e1 /\ last_ext w s2 e2.
Proof.
  intro f. assert (C : exists u h p, cut_volume f u h p).
  { destruct (starts true s_unc f) eqn:S1.
    - apply starts_ci in S1. destruct S1 as (u & r & E & M). destruct (cut_bs r) as (h & p & Er & H & P).
      exists u, h, p. apply c_unc; [congruence|rewrite M; reflexivity|exact H|exact P].
    - destruct (starts false s_uni f) eqn:S2.
      + apply starts_cs in S2. destruct S2 as (r & E). destruct (cut_bs r) as (h & p & Er & H & P).
        exists p_uni, h, p. apply c_uni; [rewrite E, Er; reflexivity| |exact H|exact P].
        intro X. apply starts_ci in X. change p_unc with s_unc in X. congruence.
      + exists [], [], f. apply c_none. intro X. apply starts_cs in X. change p_uni with s_uni in X. congruence. }
  destruct C as (u & h & p & C). destruct (wparts_exist p) as (d & w & D).
  assert (F : exists s1 e1, first_ext w s1 e1).
  { clear. unfold first_ext. induction w as [|c w (s1 & e1 & -> & H & E)]; [exists [], []; split; [reflexivity|]; split; [intros []|left; reflexivity]|].
    destruct (N.eq_dec c 46) as [->|Hc]; [exists [], (46 :: s1 ++ e1); split; [reflexivity|]; split; [intros []|right; eexists; reflexivity]|].
    exists (c :: s1), e1. split; [reflexivity|]. split; [|exact E]. intros [X|X]; [congruence|exact (H X)]. }
  assert (L : exists s2 e2, last_ext w s2 e2).
  { clear. unfold last_ext. induction w as [|c w (s2 & e2 & -> & H)]; [exists [], []; split; [reflexivity|]; left; split; [reflexivity|intros []]|].
    destruct H as [[-> H]|[r [-> H]]].
    - rewrite app_nil_r in *. destruct (N.eq_dec c 46) as [->|Hc].
      + exists [], (46 :: s2). split; [reflexivity|]. right. exists s2. auto.
      + exists (c :: s2), []. rewrite app_nil_r. split; [reflexivity|]. left. split; [reflexivity|]. intros [X|X]; [congruence|exact (H X)].
    - exists (c :: s2), (46 :: r). split; [reflexivity|]. right. exists r. auto. }
  destruct F as (s1 & e1 & F). destruct L as (s2 & e2 & L). exists u, h, p, d, w, s1, e1, s2, e2. auto.
Qed.

Example C115_ex : (* \\?\C:\a.b\c.tar.gz , \\?\UNC\h.x\s\f , x.y\z *)
  WGetPlatformFilenameInfo (p_uni ++ [67; 58; 92; 97; 46; 98; 92; 99; 46; 116; 97; 114; 46; 103; 122]) =
    {| StartVolume := 4; StartPath := 6; StartFilename := 11; StartExtension := 12; StartLastExtension := 16 |} /\
  WGetPlatformFilenameInfo (p_unc ++ [104; 46; 120; 92; 115; 92; 102]) =
    {| StartVolume := 8; StartPath := 11; StartFilename := 14; StartExtension := 15; StartLastExtension := 15 |} /\
  WGetPlatformFilenameInfo [120; 46; 121; 92; 122] =
    {| StartVolume := 0; StartPath := 0; StartFilename := 4; StartExtension := 5; StartLastExtension := 5 |}.
Proof. repeat split; vm_compute; reflexivity. Qed.

Print Assumptions C114_never_refuted.
Print Assumptions C114_cut_refuted.
Print Assumptions C115_parts.
Print Assumptions C115_all.
