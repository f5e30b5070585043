(** C127: File::Stat on Windows.  C128: File::Symlink on Windows. *)
From Verif Require Import Base S_Path S_WinPath M_Path M_WinPath P_WinPath Prop_WinVolume S_WinStat M_WinStat.
Open Scope N_scope.

(** ** C127 *)

(** A link is told from what it leads to when that is asked for; other things are directories or
    files as their attributes say. *)
Theorem C127_type : forall link a tag f,
  type_of (st_mode link a tag f) =
  Some (if link && N.testbit (dwFileAttributes a) 10 && tag then TLink else if N.testbit (dwFileAttributes a) 4 then TDir else TFile).
Proof.
  intros link a tag f. unfold st_mode, is_link, REPARSE, DIRECTORY, READONLY.
  destruct (link && _ && tag)%bool, (N.testbit _ 4), (N.testbit _ 0), (exe_name f); vm_compute; reflexivity.
Qed.

(** Everything can be read; what is not read-only can be written. *)
Theorem C127_rights : forall link a tag f,
  readable (st_mode link a tag f) = true /\ writable (st_mode link a tag f) = negb (N.testbit (dwFileAttributes a) 0).
Proof.
  intros link a tag f. unfold st_mode, is_link, REPARSE, DIRECTORY, READONLY.
  destruct (link && _ && tag)%bool, (N.testbit _ 4), (N.testbit _ 0), (exe_name f); split; vm_compute; reflexivity.
Qed.

Lemma upper_inj_dot x : upper x = 46 -> x = 46.
Proof. unfold upper. destruct (_ && _)%bool eqn:K; [|auto]. apply andb_true_iff in K. destruct K as [K1 K2]. apply N.leb_le in K1, K2. lia. Qed.

Lemma starts_whole e w : length e = length w -> starts true e w = true <-> map upper w = map upper e.
Proof.
  intro L. rewrite starts_ci. split.
  - intros (u & r & -> & M). assert (length u = length e) by (rewrite <- (map_length upper u), M, map_length; reflexivity).
    rewrite app_length in L. destruct r; [|cbn in L; lia]. now rewrite app_nil_r.
  - intro M. exists w, []. now rewrite app_nil_r.
Qed.

Lemma exe_name_ok f : exe_name f = true <-> program f.
Proof.
  unfold exe_name, program. rewrite !andb_true_iff, Nat.ltb_lt, N.eqb_eq, existsb_exists. split.
  - intros [[L D] (e & I & S)].
    exists (firstn (length f - 4) f), (skipn (length f - 4) f). split; [symmetry; apply firstn_skipn|]. split.
    { intro X. apply (f_equal (@length N)) in X. rewrite firstn_length in X. cbn in X. lia. }
    assert (E : skipn (length f - 4) f = 46 :: skipn (length f - 3) f).
    { rewrite <- D. clear S I. replace (length f - 3)%nat with (S (length f - 4)) by lia.
      assert (B : (length f - 4 < length f)%nat) by lia. revert B. generalize (length f - 4)%nat. clear. intro n. revert f.
      induction n as [|n IH]; intros [|c f] B; cbn [length] in B; try lia; [reflexivity|]. cbn [skipn nth]. rewrite IH by lia. reflexivity. }
    rewrite E. cbn [map]. assert (W : length e = 3%nat) by (cbn in I; decompose [or] I; subst; try reflexivity; contradiction).
    apply starts_whole in S; [|rewrite skipn_length; lia]. rewrite S. cbn in I. decompose [or] I; subst; cbn; auto; contradiction.
  - intros (s & e & -> & N0 & I).
    assert (L : length e = 4%nat) by (rewrite <- (map_length upper e); cbn in I; decompose [or] I; try (rewrite <- H; reflexivity); try (rewrite <- H0; reflexivity); contradiction).
    destruct e as [|d e]; [discriminate L|]. injection L as L. rewrite app_length. cbn [length]. rewrite L.
    destruct s as [|c s]; [contradiction|]. clear N0.
    assert (D : d = 46) by (apply upper_inj_dot; cbn [map] in I; cbn in I; decompose [or] I; try congruence; contradiction).
    split; [split|].
    + cbn. lia.
    + replace (length (c :: s) + 4 - 4)%nat with (length (c :: s)) by lia. rewrite app_nth2 by lia. rewrite Nat.sub_diag. exact D.
    + replace (length (c :: s) + 4 - 3)%nat with (length (c :: s) + 1)%nat by lia.
      replace (skipn (length (c :: s) + 1) ((c :: s) ++ d :: e)) with e.
      2:{ change (d :: e) with ([d] ++ e). rewrite app_assoc. rewrite skipn_app. rewrite skipn_all2 by (rewrite app_length; cbn; lia).
          rewrite app_length. cbn [length]. replace (S (length s) + 1 - (S (length s) + 1))%nat with 0%nat by lia. reflexivity. }
      cbn [map] in I. rewrite D in I. change (upper 46) with 46 in I.
      assert (J : In (map upper e) [[69; 88; 69]; [67; 79; 77]; [66; 65; 84]; [67; 77; 68]]) by (cbn in *; decompose [or] I; try contradiction; [left|right; left|right; right; left|right; right; right; left]; congruence).
      unfold exts. cbn in J. decompose [or] J; try contradiction;
        [exists [101; 120; 101]|exists [99; 111; 109]|exists [98; 97; 116]|exists [99; 109; 100]];
        (split; [cbn; auto|]); apply starts_whole; rewrite ?L; try reflexivity; cbn; congruence.
Qed.

(** Directories can be entered, and programs are known by their names. *)
Theorem C127_executable : forall link a tag f,
  executable (st_mode link a tag f) = true <->
  (if N.testbit (dwFileAttributes a) 4 then type_of (st_mode link a tag f) = Some TDir else program f).
Proof.
  intros link a tag f. rewrite C127_type. pose proof (exe_name_ok f) as P. unfold st_mode, is_link, REPARSE, DIRECTORY, READONLY.
  destruct (link && _ && tag)%bool, (N.testbit _ 4), (N.testbit _ 0), (exe_name f); cbn in *; first [tauto | split; congruence | split; [discriminate|intro X; apply P in X; discriminate]].
Qed.

Theorem C127_size : forall a, nFileSizeLow a < 2 ^ 32 -> st_size a = nFileSizeHigh a * 2 ^ 32 + nFileSizeLow a.
Proof.
  intros a H. unfold st_size. rewrite N.shiftl_mul_pow2.
  apply N.bits_inj. intro i. rewrite N.lor_spec.
  destruct (N.lt_ge_cases i 32) as [L|L].
  - rewrite N.mul_pow2_bits_low by exact L. cbn.
    rewrite <- (N.mod_pow2_bits_low (_ + _) 32 i L). rewrite N.add_comm, N.mod_add by discriminate. rewrite N.mod_small by exact H. reflexivity.
  - assert (Z : N.testbit (nFileSizeLow a) i = false).
    { destruct (N.eq_dec (nFileSizeLow a) 0) as [->|Z]; [apply N.bits_0|]. apply N.bits_above_log2. apply N.log2_lt_pow2; [lia|]. eapply N.lt_le_trans; [exact H|]. apply N.pow_le_mono_r; lia. }
    rewrite Z, Bool.orb_false_r. replace i with (i - 32 + 32) by lia. rewrite N.mul_pow2_bits_add.
    rewrite <- N.div_pow2_bits. rewrite N.add_comm, N.div_add by discriminate. rewrite N.div_small by exact H. reflexivity.
Qed.

(** The drive a name is on: given by the name, or by the current directory. *)
Definition named_drive (f : bytes) (d : N) : Prop := exists u p, cut_volume f u [65 + d; 58] p /\ d < 26.
Definition no_volume (f : bytes) : Prop := cut_volume f [] [] f.

Lemma drive_named f d : named_drive f d -> drive_of f = Some d.
Proof.
  intros (u & p & C & D). unfold drive_of.
  destruct (cut_numbers f u [65 + d; 58] p C) as (E & Ev & Ep).
  unfold WGetPlatformFilenameInfo. rewrite Ev, Ep. cbn [StartVolume StartPath length].
  replace (length u + 2 - length u =? 2)%nat with true by (symmetry; apply Nat.eqb_eq; lia).
  rewrite E. rewrite (app_nth2 u _ 0 (n := length u)) by lia. rewrite (app_nth2 u _ 0 (n := (length u + 1)%nat)) by lia.
  rewrite Nat.sub_diag. replace (length u + 1 - length u)%nat with 1%nat by lia. cbn [nth app].
  rewrite (proj2 (N.leb_le 65 (65 + d))) by lia. rewrite (proj2 (N.leb_le (65 + d) 90)) by lia. change (58 =? 58) with true. cbn [andb].
  f_equal. lia.
Qed.

Lemma drive_none f : no_volume f -> drive_of f = None.
Proof.
  intro C. unfold drive_of. destruct (cut_numbers f [] [] f C) as (_ & Ev & Ep).
  unfold WGetPlatformFilenameInfo. rewrite Ev, Ep. reflexivity.
Qed.

Theorem C127_drive : forall f link a tag cwd d r, named_drive f d \/ (no_volume f /\ exists c, cwd = Some c /\ named_drive c d) ->
  Stat f link (Some a) tag cwd = Some r -> dev r = Z.of_N d /\ mode r = st_mode link a tag f /\ size r = st_size a.
Proof.
  intros f link a tag cwd d r H. unfold Stat.
  assert (V : st_dev f cwd = Some (Z.of_N d)).
  { unfold st_dev. destruct H as [H|[H (c & -> & Hc)]]; [rewrite (drive_named _ _ H); reflexivity|].
    rewrite (drive_none _ H), (drive_named _ _ Hc). reflexivity. }
  rewrite V. intro X. injection X as <-. auto.
Qed.

(** So files on different drives differ in [dev]. *)
Theorem C127_drives : forall f g d e lf lg a b tf tg cwd r s, named_drive f d -> named_drive g e -> d <> e ->
  Stat f lf (Some a) tf cwd = Some r -> Stat g lg (Some b) tg cwd = Some s -> dev r <> dev s.
Proof.
  intros f g d e lf lg a b tf tg cwd r s F G N0 R S2.
  apply (C127_drive _ _ _ _ _ d) in R; [|left; exact F]. apply (C127_drive _ _ _ _ _ e) in S2; [|left; exact G].
  destruct R as [-> _], S2 as [-> _]. lia.
Qed.

(** Stat fails only if the file or the current directory cannot be found. *)
Theorem C127_fails : forall f link a tag cwd, Stat f link a tag cwd = None <-> a = None \/ (no_volume f /\ cwd = None).
Proof.
  intros f link a tag cwd. unfold Stat, st_dev. destruct a as [a|]; [|split; auto].
  destruct (C115_all f) as (u & h & p & _ & _ & _ & _ & _ & _ & C & _).
  destruct (cut_numbers f u h p C) as (E & Ev & Ep).
  assert (D : drive_of f = None <-> no_volume f).
  { split; [|apply drive_none]. unfold drive_of, WGetPlatformFilenameInfo. rewrite Ev, Ep. cbn [StartVolume StartPath].
    destruct (_ && _ && _ && _)%bool; [discriminate|]. destruct (Nat.ltb_spec 0 (length u)) as [L|L]; [discriminate|]. intros _.
    destruct u; [|cbn in L; lia]. inversion C; subst; try discriminate; assumption. }
  destruct (drive_of f) eqn:X.
  - split; [discriminate|]. intros [Y|[Y _]]; [discriminate|]. apply D in Y. discriminate.
  - destruct D as [D _]. specialize (D eq_refl). destruct cwd as [c|]; [|split; auto].
    destruct (drive_of c); (split; [discriminate|]); intros [Y|[_ Y]]; discriminate.
Qed.

(** Two names on one drive always have the same [dev] and [ino]. *)
Theorem C127_identity_refuted : forall f g d lf lg a b tf tg cwd r s, named_drive f d -> named_drive g d ->
  Stat f lf (Some a) tf cwd = Some r -> Stat g lg (Some b) tg cwd = Some s -> dev r = dev s /\ ino r = ino s.
Proof.
  intros f g d lf lg a b tf tg cwd r s F G R S2. split.
  - apply (C127_drive _ _ _ _ _ d) in R; [|left; exact F]. apply (C127_drive _ _ _ _ _ d) in S2; [|left; exact G].
    destruct R as [-> _], S2 as [-> _]. reflexivity.
  - unfold Stat in *. destruct (st_dev f cwd); [|discriminate]. destruct (st_dev g cwd); [|discriminate].
    injection R as <-. injection S2 as <-. reflexivity.
Qed.

(** A file of another computer has the [dev] of drive A:. *)
Theorem C127_host_refuted : forall f g h p u a b tag cwd r s, cut_volume f u h p -> u <> [] -> (length h <> 2)%nat -> named_drive g 0 ->
  Stat f false (Some a) tag cwd = Some r -> Stat g false (Some b) tag cwd = Some s -> dev r = dev s /\ ino r = ino s.
Proof.
  intros f g h p u a b tag cwd r s C U H G R S2.
  assert (S3 := S2). apply (C127_drive _ _ _ _ _ 0) in S2; [|left; exact G]. destruct S2 as [-> _].
  destruct (cut_numbers f u h p C) as (E & Ev & Ep). unfold Stat, st_dev in *.
  assert (D : drive_of f = Some 0).
  { unfold drive_of, WGetPlatformFilenameInfo. rewrite Ev, Ep. cbn [StartVolume StartPath].
    replace (_ =? 2)%nat with false. 2:{ symmetry. apply Nat.eqb_neq. destruct (length u =? 0)%nat; lia. }
    cbn. destruct u; [contradiction|]. reflexivity. }
  rewrite D in R. injection R as <-. split; [reflexivity|]. destruct (drive_of g); [|destruct cwd; [|discriminate]; destruct (drive_of b0)]; injection S3 as <-; reflexivity.
Qed.

(** A link is not followed when it is not asked for: a link to nothing is found, and one to a
    directory may be reported as a file, of size 0. *)
Definition file_link : attr_data := AttrData 1024 0 0.
Theorem C127_follow_refuted : forall f d tag cwd target, named_drive f d ->
  let t := LinkTo file_link target in
  exists r, Stat f false (Some (own_data t)) tag cwd = Some r /\ size r = 0 /\ type_of (mode r) = Some TFile /\
  (target = None -> stands_for t false = None) /\
  (forall a, target = Some a -> nFileSizeLow a < 2 ^ 32 -> 0 < nFileSizeLow a -> N.testbit (dwFileAttributes a) 4 = true ->
     exists a', stands_for t false = Some a' /\ st_size a' <> size r /\ type_of (st_mode false a' tag f) <> type_of (mode r)).
Proof.
  intros f d tag cwd target F t. unfold t, Stat, st_dev. rewrite (drive_named _ _ F). cbn [own_data]. eexists. split; [reflexivity|].
  cbn [size mode]. split; [reflexivity|]. split; [rewrite C127_type; reflexivity|]. split; [intro; assumption|].
  intros a E B P D. exists a. split; [exact E|]. split.
  - rewrite C127_size by exact B. change (st_size file_link) with 0. lia.
  - rewrite !C127_type. cbn. rewrite D. discriminate.
Qed.

Example C127_ex : (* \\?\C:\a.ExE, read-only, 2^32+5 bytes; x\y in \\?\D:\, a directory; a link *)
  Stat [92; 92; 63; 92; 67; 58; 92; 97; 46; 69; 120; 69] false (Some (AttrData 1 1 5)) false None =
    Some (Stat_ 2 0 (32768 + 292 + 73) (2 ^ 32 + 5)) /\
  Stat [120; 92; 121] true (Some (AttrData 16 0 0)) false (Some [92; 92; 63; 92; 68; 58; 92]) = Some (Stat_ 3 0 (16384 + 438 + 73) 0) /\
  Stat [120; 92; 121] true (Some (AttrData 1040 0 0)) true (Some [92; 92; 63; 92; 68; 58; 92]) = Some (Stat_ 3 0 (40960 + 438) 0) /\
  Stat [120; 92; 121] false (Some (AttrData 0 0 0)) false None = None.
Proof. repeat split; vm_compute; reflexivity. Qed.

(** ** C128 *)

(** With a target named from the root the link is made exactly if it can be and the target exists,
    and knows what the target is. *)
Theorem C128_absolute : forall k cwd src c d,
  let link := seen_from cwd src in
  dot_first src = false -> link <> [] ->
  (Symlink k cwd src (Abs c) = Some (link, Abs c, d) <->
   k link = None /\ k (removelast link) = Some true /\ k (leads_to link (Abs c)) = Some d).
Proof.
  intros k cwd src c d link D L. unfold Symlink. fold link. rewrite D. cbn [dot_first orb seen_from leads_to].
  destruct link as [|x link]; [contradiction|].
  destruct (k (resolve [] c)) as [e|]; [|split; [discriminate|intros (_ & _ & X); discriminate]].
  destruct (k (x :: link)); [split; [discriminate|intros (X & _); discriminate]|].
  destruct (k (removelast (x :: link))) as [[|]|]; split; try discriminate; try (intros (_ & X & _); discriminate).
  - intro X. injection X as ->. auto.
  - intros (_ & _ & X). congruence.
Qed.

Lemma resolve_proper c : Forall (fun x => proper x /\ x <> []) c -> forall st, resolve st c = st ++ c.
Proof.
  induction 1 as [|x c [[P1 P2] P3] F IH]; intro st; [now rewrite app_nil_r|]. cbn [resolve].
  destruct (list_eq_dec N.eq_dec x []); [contradiction|]. destruct (list_eq_dec N.eq_dec x [46]); [contradiction|].
  destruct (list_eq_dec N.eq_dec x [46; 46]); [contradiction|]. rewrite IH, <- app_assoc. reflexivity.
Qed.

(** A relative target of the usual form, that is some ".." and then names, is always refused,
    whatever there is. *)
Theorem C128_relative_refuted : forall k cwd src i c, tree_like k -> Forall (fun x => proper x /\ x <> []) c -> (0 < i + length c)%nat ->
  Symlink k cwd src (Rel (repeat [46; 46] i ++ c)) = None.
Proof.
  intros k cwd src i c T F L. unfold Symlink. destruct i as [|i]; [|cbn [repeat app dot_first]; cbn; now rewrite Bool.orb_true_r].
  cbn [repeat app seen_from]. rewrite resolve_proper by exact F.
  destruct (dot_first src || _)%bool; [reflexivity|].
  destruct (k (seen_from cwd src ++ c)) as [e|] eqn:K; [|reflexivity].
  assert (N0 : c <> []) by (destruct c; [cbn in L; lia|discriminate]).
  assert (K2 : k (seen_from cwd src) = Some true) by (apply (T _ c N0); congruence).
  destruct (seen_from cwd src); [reflexivity|]. now rewrite K2.
Qed.

(** Other relative targets are looked for in the wrong place: a file is linked to as a directory,
    and a link is made to nothing. *)
Theorem C128_kind_refuted : exists k cwd src dest link, tree_like k /\
  Symlink k cwd src dest = Some (link, dest, true) /\ k (leads_to link dest) = Some false.
Proof.
  (* \, \d, \d\t directories, \t a file; link \d\l to x\..\..\t *)
  set (isin := fun (l : list (list bytes)) p => existsb (fun q => if list_eq_dec (list_eq_dec N.eq_dec) p q then true else false) l).
  exists (fun p => if isin [[]; [[100]]; [[100]; [116]]] p then Some true else if isin [[[116]]] p then Some false else None).
  exists [], (Abs [[100]; [108]]), (Rel [[120]; [46; 46]; [46; 46]; [116]]), [[100]; [108]]. split.
  - intros p q Q K. destruct p as [|a [|b p]].
    + reflexivity.
    + destruct q as [|b q]; [contradiction|]. destruct (list_eq_dec N.eq_dec a [100]) as [->|A]; [reflexivity|]. exfalso. apply K.
      unfold isin. cbn [existsb app]. repeat match goal with |- context [list_eq_dec ?d ?x ?y] => destruct (list_eq_dec d x y) as [X|_]; [congruence|] end. reflexivity.
    + destruct q as [|c q]; [contradiction|]. exfalso. apply K. unfold isin. cbn [existsb app].
      repeat match goal with |- context [list_eq_dec ?d ?x ?y] => destruct (list_eq_dec d x y) as [X|_]; [exfalso; apply (f_equal (@length bytes)) in X; cbn in X; rewrite app_length in X; cbn in X; lia|] end. reflexivity.
  - split; vm_compute; reflexivity.
Qed.

Theorem C128_nothing_refuted : exists k cwd src dest link d, tree_like k /\
  Symlink k cwd src dest = Some (link, dest, d) /\ k (leads_to link dest) = None.
Proof.
  (* \, \d, \d\t directories; link \d\l to x\..\..\t *)
  set (isin := fun (l : list (list bytes)) p => existsb (fun q => if list_eq_dec (list_eq_dec N.eq_dec) p q then true else false) l).
  exists (fun p => if isin [[]; [[100]]; [[100]; [116]]] p then Some true else None).
  exists [], (Abs [[100]; [108]]), (Rel [[120]; [46; 46]; [46; 46]; [116]]), [[100]; [108]], true. split.
  - intros p q Q K. destruct p as [|a [|b p]].
    + reflexivity.
    + destruct q as [|b q]; [contradiction|]. destruct (list_eq_dec N.eq_dec a [100]) as [->|A]; [reflexivity|]. exfalso. apply K.
      unfold isin. cbn [existsb app]. repeat match goal with |- context [list_eq_dec ?d ?x ?y] => destruct (list_eq_dec d x y) as [X|_]; [congruence|] end. reflexivity.
    + destruct q as [|c q]; [contradiction|]. exfalso. apply K. unfold isin. cbn [existsb app].
      repeat match goal with |- context [list_eq_dec ?d ?x ?y] => destruct (list_eq_dec d x y) as [X|_]; [exfalso; apply (f_equal (@length bytes)) in X; cbn in X; rewrite app_length in X; cbn in X; lia|] end. reflexivity.
  - split; vm_compute; reflexivity.
Qed.

Example C128_ex : let k p := match p with [] | [[97]] => Some true | [[98]] => Some false | _ => None end in
  Symlink k [[97]] (Rel [[120]]) (Abs [[97]; [46; 46]; [98]]) = Some ([[97]; [120]], Abs [[97]; [46; 46]; [98]], false) /\
  Symlink k [[97]] (Rel [[120]]) (Abs [[97]]) = Some ([[97]; [120]], Abs [[97]], true) /\
  Symlink k [[97]] (Abs [[98]]) (Abs [[97]]) = None /\
  Symlink k [] (Rel [[120]]) (Rel [[98]]) = None.
Proof. repeat split; vm_compute; reflexivity. Qed.

Print Assumptions C127_type.
Print Assumptions C127_rights.
Print Assumptions C127_executable.
Print Assumptions C127_size.
Print Assumptions C127_drive.
Print Assumptions C127_drives.
Print Assumptions C127_fails.
Print Assumptions C127_identity_refuted.
Print Assumptions C127_host_refuted.
Print Assumptions C127_follow_refuted.
Print Assumptions C128_absolute.
Print Assumptions C128_relative_refuted.
Print Assumptions C128_kind_refuted.
Print Assumptions C128_nothing_refuted.
