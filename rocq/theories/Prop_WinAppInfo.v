(** Final theorems about the Windows directory helpers and executable name (C110, C111, C112). *)
From Verif Require Import Base S_Utf8 M_Utf8 P_Utf8 S_AppInfo M_AppInfo P_AppInfo S_WinAppInfo M_WinAppInfo P_WinFile P_WinAppInfo.
Open Scope N_scope.

(** A Windows name: UTF-16 of a text that starts with a plain character. *)
Definition wname (units : list N) : Prop :=
  exists c cps, 0 < c < 128 /\ Forall allowed cps /\ units = text enc16 (c :: cps).

(** The call comes back, and the buffer still has its size. *)
Definition within (b : bytes) (r : res answer) : Prop := exists b' a, r = Ok (b', a) /\ length b' = length b.

Lemma wname_allowed c cps : 0 < c < 128 -> Forall allowed cps -> Forall allowed (c :: cps).
Proof. intros H A. constructor; auto. unfold allowed. rewrite N.mod_small by lia. lia. Qed.

Lemma text_pos c cps : (1 <= length (text enc16 (c :: cps)))%nat.
Proof.
  change (text enc16 (c :: cps)) with (enc16 c ++ text enc16 cps). rewrite app_length.
  unfold enc16. destruct (c <? 65536); cbn; lia.
Qed.

Lemma WStorage_within dir b app cap : wname dir -> (cap <= length b)%nat -> (b <> [] -> 1 <= cap)%nat ->
  within b (WStorageDir dir b app cap).
Proof.
  intros (c & cps & Hc & A & ->) L P. destruct b as [|x b].
  - assert (cap = 0%nat) by (cbn in L; lia). subst cap.
    destruct (to_buffer_spec (c :: cps) [] 0 (wname_allowed c cps Hc A) (le_n _)) as (o & E & K).
    pose proof (keeps_cap _ _ _ _ _ K ltac:(cbn; lia)) as Lo. destruct o; [|cbn in Lo; lia].
    assert (Q : forall a, put_str [] 0 a = Ok ([], 0%nat)) by (intros [|? ?]; reflexivity).
    unfold WStorageDir. rewrite E. cbn. destruct app as [a|]; [rewrite Q|]; cbn; do 2 eexists; split; reflexivity.
  - specialize (P ltac:(discriminate)).
    destruct (WStorage_kept (c :: cps) (x :: b) app cap (wname_allowed c cps Hc A) L) as (o & K & _ & D).
    destruct (D (keeps_first cap c cps o Hc P K)) as (b' & a & E & LL & _). exists b', a. auto.
Qed.

(** ** C110 *)

(** The system and user directories and the executable name stay inside the caller's buffer,
    whatever its size, the name Windows delivers, and the application directory. *)
Theorem C110_inside : forall folder b app got,
  match folder with None => True | Some d => wname d end -> (exists cps, Forall allowed cps /\ got = text enc16 cps) ->
  within b (WAppStorageDir folder b app) /\ within b (WExecutableFilename got b).
Proof.
  intros folder b app got F (cps & A & ->). split.
  - unfold WAppStorageDir. destruct (clear_ok b) as (b0 & E & L). rewrite E. cbn [bind].
    destruct folder as [d|]; [|exists b0, None; auto].
    destruct (WStorage_within d b0 app (length b) F) as (b' & a & E1 & L1); [lia| |exists b', a; split; auto; congruence].
    intro Hn. destruct b0; [congruence|cbn in L; lia].
  - unfold WExecutableFilename. destruct (clear_ok b) as (b0 & E & L). rewrite E. cbn [bind].
    destruct (_ <? _); [|exists b0, None; auto].
    replace (text enc16 cps ++ [0]) with (text enc16 (cps ++ [0])).
    2:{ unfold text. rewrite map_app, concat_app. reflexivity. }
    destruct (to_buffer_spec (cps ++ [0]) b0 (length b0)) as (o & E1 & K).
    { apply Forall_app. split; [exact A|]. constructor; [|constructor]. unfold allowed. cbn. lia. }
    { lia. }
    pose proof (keeps_cap _ _ _ _ _ K ltac:(cbn; lia)) as Lo. destruct (stored_hold b0 o Lo) as [_ LL].
    rewrite E1. cbn [bind]. destruct (_ =? _)%nat; do 2 eexists; (split; [reflexivity|congruence]).
Qed.

(** The temporary directory does so in buffers at least as long as the path. *)
Theorem C110_temp_inside : forall temp b, wname temp -> (length temp <= length b)%nat -> within b (WTempStorageDir temp b).
Proof.
  intros temp b W L. unfold WTempStorageDir. destruct (clear_ok b) as (b0 & E & L0). rewrite E. cbn [bind].
  destruct W as (c & cps & Hc & A & Et). pose proof (text_pos c cps) as P. rewrite <- Et in P.
  destruct temp as [|u temp]; [cbn in P; lia|].
  destruct (WStorage_within (u :: temp) b0 None (length (u :: temp))) as (b' & a & E1 & L1).
  - exists c, cps. auto.
  - lia.
  - intros _. exact P.
  - exists b', a. split; [exact E1|congruence].
Qed.

(** REFUTED: with any shorter buffer GetTempStorageDir writes behind the end. *)
Theorem C110_temp_refuted : forall temp b, ascii temp -> (length b < length temp)%nat -> WTempStorageDir temp b = UB.
Proof.
  intros temp b A L. unfold WTempStorageDir. destruct (clear_ok b) as (b0 & E & L0). rewrite E. cbn [bind].
  destruct temp as [|u temp]; [cbn in L; lia|].
  unfold WStorageDir, to_buffer, ConvertToUTF8.
  rewrite to8_over; [reflexivity|exact A|lia|lia|lia].
Qed.

Example C110_ex : (* C:\Temp\ and a buffer of 4 bytes; C:\a in 12 bytes for the application x *)
  WTempStorageDir [67;58;92;84;101;109;112;92] [1;1;1;1] = UB /\
  WAppStorageDir (Some [67;58;92;97]) [1;1;1;1;1;1;1;1;1;1;1;1] (Some [120]) = Ok ([67;58;92;97;92;120;92;0;1;1;1;1], Some 8%nat) /\
  WAppStorageDir (Some [67;58;92;97]) [1;1;1] (Some [120]) = Ok ([67;58;92], None).
Proof. repeat split; vm_compute; reflexivity. Qed.

(** ** C111 *)

(** The directory, then the application directory, each followed by one separator unless it has
    one, when that and two more bytes fit; false otherwise.  For every name that fits into
    the buffer, and every plain name whether it fits or not. *)
Theorem C111_storage : forall cps b app, cps <> [] ->
  (good_text cps /\ (length (text enc8 cps) <= length b)%nat) \/ ascii cps ->
  delivered (length b) (WAppStorageDir (Some (text enc16 cps)) b app) (wstorage (text enc8 cps) app).
Proof.
  intros cps b app Hn H. unfold WAppStorageDir. destruct (clear_ok b) as (b0 & E & L). rewrite E. cbn [bind]. rewrite <- L.
  destruct H as [[G F]|A].
  - apply WStorage_fits; auto. lia.
  - destruct (ascii_texts cps A) as (E16 & E8 & G). rewrite E16, E8. apply WStorage_ascii; auto.
Qed.

(** A plain temporary path is delivered by every buffer it fits into. *)
Theorem C111_temp : forall temp b, ascii temp -> temp <> [] -> (length temp <= length b)%nat ->
  delivered (length b) (WTempStorageDir temp b) (with_back temp).
Proof.
  intros temp b A Hn H. unfold WTempStorageDir. destruct (clear_ok b) as (b0 & E & L). rewrite E. cbn [bind]. rewrite <- L.
  destruct temp as [|u temp]; [congruence|]. change (with_back (u :: temp)) with (wstorage (u :: temp) None).
  apply WStorage_ascii; auto. lia.
Qed.

(** When Windows does not know the directory the answer is false. *)
Theorem C111_unknown : forall b app, exists b1 b2,
  WAppStorageDir None b app = Ok (b1, None) /\ WTempStorageDir [] b = Ok (b2, None).
Proof.
  intros b app. unfold WAppStorageDir, WTempStorageDir. destruct (clear_ok b) as (b0 & E & L). rewrite E. cbn. eauto.
Qed.

(** REFUTED: a buffer that has room for exactly the text and its terminator is refused. *)
Theorem C111_exact_fit_refuted : forall cps b app, cps <> [] -> ascii cps ->
  length b = S (length (wstorage cps app)) -> exists b', WAppStorageDir (Some cps) b app = Ok (b', None).
Proof.
  intros cps b app Hn A L. destruct (ascii_texts cps A) as (E16 & E8 & G).
  destruct (C111_storage cps b app Hn (or_intror A)) as (b' & a & E & _ & R).
  rewrite E8, E16 in *. rewrite (proj2 (Nat.leb_gt _ _)) in R by lia. subst a. eauto.
Qed.

(** REFUTED: a character that does not fit any more is left out and the rest taken for the whole. *)
Theorem C111_skipped_refuted : forall p c b, ascii p -> p <> [] -> last p 0 <> 92 -> allowed c -> 65536 <= c ->
  length b = (length p + 3)%nat ->
  exists b', WAppStorageDir (Some (text enc16 (p ++ [c]))) b None = Ok (b', Some (length p + 2)%nat) /\ holds b' (p ++ [92]).
Proof.
  intros p c b A Hn Hl Hc Hb L. unfold WAppStorageDir. destruct (clear_ok b) as (b0 & E & L0). rewrite E. cbn [bind].
  destruct (ascii_texts p A) as (E16 & E8 & G).
  destruct (WStorage_kept (p ++ [c]) b0 None (length b)) as (o & K & Lo & D).
  { apply Forall_app. split; [apply G|]. constructor; auto. }
  { lia. }
  assert (o = p) as ->.
  { eapply keeps_fun; [exact K|]. eapply keeps_app.
    - pose proof (keeps_all enc8 (Some (length b)) enc8_len_pos p [] (proj1 G) (fun _ => proj2 G)) as Q.
      rewrite E8 in Q. cbn in Q. apply Q. lia.
    - apply k_drop; [|constructor]. intros (_ & _ & F). cbn in F. revert F. unfold enc8.
      rewrite (proj2 (N.ltb_ge c 128)), (proj2 (N.ltb_ge c 2048)), (proj2 (N.ltb_ge c 65536)) by lia. cbn [length]. lia. }
  destruct (D Hn) as (b' & a & E1 & _ & R). exists b'. rewrite E1. unfold wstorage, with_back in R.
  rewrite (proj2 (N.eqb_neq _ _) Hl) in R. rewrite app_length in R. cbn [length] in R.
  rewrite (proj2 (Nat.leb_le _ _)) in R by lia. destruct R as [-> R]. split; [|exact R]. do 3 f_equal. lia.
Qed.

(** REFUTED: a temporary path whose UTF-8 form is two or more bytes longer than its UTF-16 form has
    units is never delivered, however large the buffer: some of its characters are missing. *)
Theorem C111_temp_refuted : forall c cps b, 0 < c < 128 -> Forall allowed cps ->
  (length (text enc16 (c :: cps)) + 2 <= length (text enc8 (c :: cps)))%nat -> (length (text enc16 (c :: cps)) + 3 <= length b)%nat ->
  exists b' n t, WTempStorageDir (text enc16 (c :: cps)) b = Ok (b', Some n) /\ n = S (length t) /\ holds b' t /\
    t <> with_back (text enc8 (c :: cps)).
Proof.
  intros c cps b Hc A H1 H2. unfold WTempStorageDir. destruct (clear_ok b) as (b0 & E & L0). rewrite E. cbn [bind].
  pose proof (text_pos c cps) as P.
  destruct (text enc16 (c :: cps)) as [|u temp] eqn:Et; [cbn in P; lia|]. rewrite <- Et in *. clear Et u temp.
  destruct (WStorage_kept (c :: cps) b0 None (length (text enc16 (c :: cps)))) as (o & K & Lo & D).
  { apply wname_allowed; auto. }
  { lia. }
  destruct (D (keeps_first _ c cps o Hc P K)) as (b' & a & E1 & _ & R). cbn [wstorage] in R.
  assert (W : forall t, (length t <= length (with_back t) <= S (length t))%nat).
  { intro t. unfold with_back. destruct (_ =? _); [lia|]. rewrite app_length. cbn. lia. }
  pose proof (W o). pose proof (W (text enc8 (c :: cps))).
  rewrite (proj2 (Nat.leb_le _ _)) in R by lia. destruct R as [-> R].
  exists b', (S (length (with_back o))), (with_back o). repeat split; auto.
  intro X. rewrite X in *. lia.
Qed.

Example C111_ex : (* C:\éé\ , and C: followed by U+1F600 in a buffer of 5 bytes *)
  WTempStorageDir [67;58;92;233;233;92] (repeat 1 12) = Ok ([67;58;92;195;169;92;0;1;1;1;1;1], Some 7%nat) /\
  WAppStorageDir (Some [67;58;0xD83D;0xDE00]) [1;1;1;1;1] None = Ok ([67;58;92;0;1], Some 4%nat) /\
  WAppStorageDir (Some [67;58;92;233;92]) (repeat 1 8) None = Ok ([67;58;92;195;169;92;0;1], Some 7%nat) /\
  WAppStorageDir (Some [67;58;92]) (repeat 1 4) None = Ok ([67;58;92;0], None) /\
  WTempStorageDir [67;58;92] (repeat 1 5) = Ok ([67;58;92;0;1], Some 4%nat).
Proof. repeat split; vm_compute; reflexivity. Qed.

(** ** C112 *)

Lemma exe_units cps : text enc16 cps ++ [0] = text enc16 (cps ++ [0]).
Proof. unfold text. rewrite map_app, concat_app. reflexivity. Qed.
Lemma exe_bytes cps : text enc8 (cps ++ [0]) = text enc8 cps ++ [0].
Proof. unfold text. rewrite map_app, concat_app. reflexivity. Qed.

(** The name of the executable and its length with the terminator, when one byte more is there. *)
Theorem C112_exact : forall cps b, good_text cps -> N.of_nat (length (text enc16 cps)) < 8191 -> (length (text enc8 cps) + 2 <= length b)%nat ->
  exists b', WExecutableFilename (text enc16 cps) b = Ok (b', Some (S (length (text enc8 cps)))) /\ holds b' (text enc8 cps).
Proof.
  intros cps b G L8 L. unfold WExecutableFilename. destruct (clear_ok b) as (b0 & E & L0). rewrite E. cbn [bind].
  rewrite (proj2 (N.ltb_lt _ _)) by lia. rewrite exe_units.
  assert (GA : Forall allowed (cps ++ [0])).
  { apply Forall_app. split; [apply G|]. constructor; [|constructor]. unfold allowed. cbn. lia. }
  destruct (to_buffer_spec (cps ++ [0]) b0 (length b0) GA (le_n _)) as (o & E1 & K).
  assert (o = text enc8 cps ++ [0]) as ->.
  { eapply keeps_fun; [exact K|]. rewrite <- exe_bytes.
    apply (keeps_all enc8 (Some (length b0)) enc8_len_pos (cps ++ [0]) []); [exact GA| |].
    - intros _. destruct G as [_ G]. destruct cps; cbn [app]; [unfold combining; lia|exact G].
    - cbn. rewrite exe_bytes, app_length. cbn [length]. lia. }
  destruct (stored_hold b0 (text enc8 cps ++ [0])) as [_ LL]. { rewrite app_length. cbn. lia. }
  rewrite E1. cbn [bind]. rewrite LL. rewrite app_length. cbn [length]. rewrite (proj2 (Nat.eqb_neq _ _)) by lia.
  eexists. split; [do 3 f_equal; lia|]. unfold stored. rewrite <- app_assoc. cbn [app]. eexists. reflexivity.
Qed.

(** A plain name that does not fit with a byte to spare is refused, and so is one too long for Windows' room. *)
Theorem C112_long : forall got b,
  (ascii got -> (length b < length got + 2)%nat -> exists b', WExecutableFilename got b = Ok (b', None)) /\
  (8191 <= N.of_nat (length got) -> exists b', WExecutableFilename got b = Ok (b', None)).
Proof.
  intros got b. unfold WExecutableFilename. destruct (clear_ok b) as (b0 & E & L0). rewrite E. cbn [bind]. split.
  - intros A L. destruct (N.ltb_spec (N.of_nat (length got)) 8191); [|eauto].
    destruct (ascii_texts got A) as (E16 & E8 & G). rewrite <- E16. rewrite exe_units.
    destruct (to_buffer_spec (got ++ [0]) b0 (length b0)) as (o & E1 & K); [|lia|].
    { apply Forall_app. split; [apply G|]. constructor; [|constructor]. unfold allowed. cbn. lia. }
    pose proof (keeps_cap _ _ _ _ _ K ltac:(cbn; lia)) as Lo. destruct (stored_hold b0 o Lo) as [_ LL].
    assert (length o = length b0); [|rewrite E1; cbn [bind]; rewrite LL, (proj2 (Nat.eqb_eq _ _)) by lia; eauto].
    assert (Q : forall n out o, Forall (fun c => c < 128) n -> (length out <= length b0)%nat -> (length b0 <= length out + length n)%nat ->
        keeps enc8 (Some (length b0)) out n o -> length o = length b0).
    { clear. induction n as [|c n IH]; intros out o F L1 L2 K; inversion K as [|? ? ? ? A' K'|? ? ? ? A' K']; subst.
      - cbn in L2. lia.
      - pose proof A' as (_ & _ & X). cbn in X. assert (L : length (enc8 c) = 1%nat).
        { unfold enc8. rewrite (proj2 (N.ltb_lt _ _) (Forall_inv F)). reflexivity. }
        apply (IH _ _ (Forall_inv_tail F)) in K'; [exact K'| |]; rewrite app_length; cbn [length] in *; lia.
      - destruct (Nat.eq_dec (length out) (length b0)) as [X|X].
        + apply keeps_cap in K; [|exact L1]. pose proof (keeps_grow _ _ _ _ _ K') as [s ->]. rewrite app_length in *. lia.
        + exfalso. apply A'. pose proof (Forall_inv F) as Hc. cbn in Hc. unfold accepts, allowed, combining, enc8.
          rewrite (proj2 (N.ltb_lt _ _)) by lia. rewrite N.mod_small by lia. cbn [fits length]. repeat split; lia. }
    apply (Q (got ++ [0]) [] o); [|cbn; lia|rewrite app_length; cbn; lia|exact K].
    apply Forall_app. split; [|repeat constructor]. eapply Forall_impl; [|exact A]. intros c Hc. cbn in *. lia.
  - intro H. rewrite (proj2 (N.ltb_ge _ _)) by lia. eauto.
Qed.

(** REFUTED: when Windows fails the answer is true, with an empty name. *)
Theorem C112_failed_refuted : forall b, (2 <= length b)%nat ->
  exists b', WExecutableFilename [] b = Ok (b', Some 1%nat) /\ holds b' [].
Proof.
  intros b L. destruct (C112_exact [] b) as (b' & E & H); [split; constructor|cbn; lia|cbn; lia|]. exists b'. auto.
Qed.

(** REFUTED: a character that does not fit is left out and the answer true, with the name of
    another file. *)
Theorem C112_skipped_refuted : forall p c b, ascii p -> N.of_nat (length p) < 8000 -> allowed c -> 2048 <= c -> p <> [] ->
  length b = (length p + 2)%nat ->
  exists b', WExecutableFilename (text enc16 (p ++ [c])) b = Ok (b', Some (S (length p))) /\ holds b' p.
Proof.
  intros p c b A Lp Hc Hb Hn L. unfold WExecutableFilename. destruct (clear_ok b) as (b0 & E & L0). rewrite E. cbn [bind].
  destruct (ascii_texts p A) as (E16 & E8 & G).
  assert (length (text enc16 (p ++ [c])) <= length p + 2)%nat.
  { unfold text. rewrite map_app, concat_app, app_length. fold (text enc16 p). rewrite E16. cbn. rewrite app_nil_r.
    unfold enc16. destruct (c <? 65536); cbn; lia. }
  rewrite (proj2 (N.ltb_lt _ _)) by lia. rewrite exe_units.
  destruct (to_buffer_spec ((p ++ [c]) ++ [0]) b0 (length b0)) as (o & E1 & K); [|lia|].
  { apply Forall_app; split; [apply Forall_app; split; [apply G|auto]|]. constructor; [|constructor]. unfold allowed. cbn. lia. }
  assert (o = p ++ [0]) as ->.
  { eapply keeps_fun; [exact K|]. rewrite <- app_assoc. eapply keeps_app.
    - pose proof (keeps_all enc8 (Some (length b0)) enc8_len_pos p [] (proj1 G) (fun _ => proj2 G)) as Q.
      rewrite E8 in Q. cbn in Q. apply Q. lia.
    - apply k_drop; [|apply k_take; [|constructor]].
      + intros (_ & _ & F). cbn in F. revert F. unfold enc8.
        rewrite (proj2 (N.ltb_ge c 128)), (proj2 (N.ltb_ge c 2048)) by lia. destruct (c <? 65536); cbn [length]; lia.
      + unfold accepts. cbn. unfold allowed, combining. cbn. repeat split; try lia. }
  destruct (stored_hold b0 (p ++ [0])) as [_ LL]. { rewrite app_length. cbn. lia. }
  rewrite E1. cbn [bind]. rewrite LL. rewrite app_length. cbn [length]. rewrite (proj2 (Nat.eqb_neq _ _)) by lia.
  eexists. split; [do 3 f_equal; lia|]. unfold stored. rewrite <- app_assoc. cbn [app]. eexists. reflexivity.
Qed.

Example C112_ex : (* a.exe, too little room for it, and the file a€ in a buffer of 3 bytes *)
  WExecutableFilename [97;46;101;120;101] (repeat 1 8) = Ok ([97;46;101;120;101;0;1;1], Some 6%nat) /\
  WExecutableFilename [97;46;101;120;101] (repeat 1 6) = Ok ([97;46;101;120;101;0], None) /\
  WExecutableFilename [97;0x20AC] (repeat 1 3) = Ok ([97;0;1], Some 2%nat) /\
  WExecutableFilename [] (repeat 1 3) = Ok ([0;1;1], Some 1%nat).
Proof. repeat split; vm_compute; reflexivity. Qed.

Print Assumptions C110_inside.
Print Assumptions C110_temp_inside.
Print Assumptions C110_temp_refuted.
Print Assumptions C111_storage.
Print Assumptions C111_temp.
Print Assumptions C111_unknown.
Print Assumptions C111_exact_fit_refuted.
Print Assumptions C111_skipped_refuted.
Print Assumptions C111_temp_refuted.
Print Assumptions C112_exact.
Print Assumptions C112_long.
Print Assumptions C112_failed_refuted.
Print Assumptions C112_skipped_refuted.
