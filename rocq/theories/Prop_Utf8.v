(** Properties C11-C17 and C63: UTF-8 conversion. *)
From Verif Require Import Base S_Utf8 M_Utf8 P_Utf8.
Open Scope N_scope.

(** Destination buffer [b] after the units [o] were stored at its start. *)
Definition stored (b o : list N) : list N := o ++ skipn (length o) b.

(** ** C11 *)

(** A buffer of at least the announced size [max] is never exceeded, and nothing behind the
    reported bytes is touched. *)
Theorem C11_capacity : forall w src b max,
  units w src -> (max <= length b)%nat ->
  exists o lp, ConvertToUTF8 w src (Some b) max = Ok (Some (stored b o), length o, lp)
               /\ (length o <= max)%nat.
Proof.
  intros w src b max HU HR. destruct (scans_exists w src HU) as [cps Hs].
  destruct (convert_spec w src cps (Some b) max HR Hs) as (o & lp & E & K).
  exists o, lp. split; [exact E|]. eapply keeps_cap; [exact K|cbn; lia].
Qed.
Print Assumptions C11_capacity.

(** The counting pass (NULL destination, any announced size) gives the size of the output that
    every large enough buffer receives, and the output does not depend on the buffer. *)
Theorem C11_counting_pass : forall w src junk,
  units w src ->
  exists o lp0, ConvertToUTF8 w src None junk = Ok (None, length o, lp0)
    /\ forall b max, (length o <= max <= length b)%nat ->
       exists lp, ConvertToUTF8 w src (Some b) max = Ok (Some (stored b o), length o, lp).
Proof.
  intros w src junk HU. destruct (scans_exists w src HU) as [cps Hs].
  destruct (convert_spec w src cps None junk I Hs) as (o & lp & E & K).
  exists o, lp. split; [exact E|]. intros b max [H1 H2].
  destruct (convert_spec w src cps (Some b) max H2 Hs) as (o2 & lp2 & E2 & K2).
  rewrite (keeps_fun _ _ _ _ _ _ K2 (keeps_unbounded _ max _ _ _ K H1)) in E2. eauto.
Qed.
Print Assumptions C11_counting_pass.

(** The allocating version therefore returns a block filled exactly. *)
Theorem C11_alloc : forall w src, units w src ->
  exists o lp0, ConvertToUTF8 w src None 0 = Ok (None, length o, lp0)
             /\ ConvertToUTF8_alloc w src = Ok (o, length o).
Proof.
  intros w src HU. destruct (C11_counting_pass w src 0 HU) as (o & lp0 & E & H).
  exists o, lp0. split; [exact E|]. unfold ConvertToUTF8_alloc. rewrite E. cbn [bind].
  destruct (H (repeat 0 (length o)) (length o)) as [lp E2]; [rewrite repeat_length; lia|].
  rewrite E2. cbn [bind]. unfold stored. rewrite skipn_all2 by (rewrite repeat_length; lia).
  now rewrite app_nil_r.
Qed.
Print Assumptions C11_alloc.

Example C11_ex : units Wd2 [0x41; 0xD83D; 0xDE00; 0xE9]
  /\ ConvertToUTF8 Wd2 [0x41; 0xD83D; 0xDE00; 0xE9] None 0 = Ok (None, 7%nat, Some 3%nat)
  /\ ConvertToUTF8 Wd2 [0x41; 0xD83D; 0xDE00; 0xE9] (Some (repeat 7 5)) 4
     = Ok (Some [0x41; 0xC3; 0xA9; 7; 7], 3%nat, Some 3%nat).
Proof. split; [repeat constructor|split; vm_compute; reflexivity]. Qed.

(** ** C12 *)
Theorem C12_output_wellformed : forall w src b max,
  units w src -> (max <= length b)%nat ->
  exists o lp, ConvertToUTF8 w src (Some b) max = Ok (Some (stored b o), length o, lp) /\ wf_utf8 o.
Proof.
  intros w src b max HU HR. destruct (scans_exists w src HU) as [cps Hs].
  destruct (convert_spec w src cps (Some b) max HR Hs) as (o & lp & E & K).
  exists o, lp. split; [exact E|].
  eapply keeps_good; [exact enc8_len_pos|exact K| |].
  - instantiate (1 := []). split; [constructor|exact I].
  - reflexivity.
Qed.
Print Assumptions C12_output_wellformed.

(** Exactly which code points come out: those found by scanning the source, in order, each one
    kept if it is allowed, does not put a combining mark first, and fits. *)
Theorem C12_output_exact : forall w src cps b max,
  match w with Wd1 => byteList src /\ scan8 src cps | Wd2 => scan16 src cps | Wd4 => src = cps end ->
  (max <= length b)%nat ->
  exists o lp, ConvertToUTF8 w src (Some b) max = Ok (Some (stored b o), length o, lp)
               /\ keeps enc8 (Some max) [] cps o.
Proof. intros w src cps b max Hs HR. exact (convert_spec w src cps (Some b) max HR Hs). Qed.
Print Assumptions C12_output_exact.

(** The scanning relation used above relates every byte string to exactly one code point list. *)
Theorem C12_scan_total : forall src, byteList src -> exists cps, scan8 src cps /\ forall c, scan8 src c -> c = cps.
Proof.
  intros src H. destruct (scan8_exists src H) as [cps Hc]. exists cps. split; auto.
  intros c Hc'. eapply scan8_unique; eauto.
Qed.
Print Assumptions C12_scan_total.

Example C12_ex : (* stray bytes, an overlong 'A', a surrogate in UTF-8, U+FFFF, then the euro sign *)
  let src := [0x80; 0xC1; 0x81; 0xED; 0xA0; 0x80; 0xEF; 0xBF; 0xBF; 0xFF; 0xE2; 0x82; 0xAC] in
  byteList src
  /\ ConvertToUTF8 Wd1 src (Some (repeat 0 8)) 8
     = Ok (Some [0x41; 0xE2; 0x82; 0xAC; 0; 0; 0; 0], 4%nat, Some 3%nat).
Proof. cbv zeta. split; [repeat constructor|vm_compute; reflexivity]. Qed.

(** ** C13 *)
Theorem C13_wellformed_unchanged : forall s b max,
  wf_utf8 s -> (length s <= max <= length b)%nat ->
  exists lp, ConvertToUTF8 Wd1 s (Some b) max = Ok (Some (stored b s), length s, lp).
Proof.
  intros s b max (cps & [G1 G2] & ->) [H1 H2].
  destruct (convert_spec Wd1 (text enc8 cps) cps (Some b) max H2) as (o & lp & E & K).
  { split; [now apply text8_bytes|now apply scan8_text]. }
  exists lp. replace (text enc8 cps) with o at 2 3; [exact E|].
  eapply keeps_fun; [exact K|]. apply (keeps_all enc8 (Some max) enc8_len_pos cps []); auto.
Qed.
Print Assumptions C13_wellformed_unchanged.

Theorem C13_idempotent : forall w src b max o lp,
  units w src -> (max <= length b)%nat ->
  ConvertToUTF8 w src (Some b) max = Ok (Some (stored b o), length o, lp) -> (length o <= max)%nat ->
  forall b2 max2, (length o <= max2 <= length b2)%nat ->
  exists lp2, ConvertToUTF8 Wd1 o (Some b2) max2 = Ok (Some (stored b2 o), length o, lp2).
Proof.
  intros w src b max o lp HU HR E HL b2 max2 H2.
  destruct (C12_output_wellformed w src b max HU HR) as (o' & lp' & E' & W).
  destruct (C11_capacity w src b max HU HR) as (o3 & lp3 & E3 & L3).
  rewrite E in E'. inversion E' as [[Q1 Q2 Q3]].
  assert (o = o').
  { unfold stored in Q1. apply app_len_inj in Q1; [tauto|auto]. }
  subst o'. now apply C13_wellformed_unchanged.
Qed.
Print Assumptions C13_idempotent.

(** Any encoding pattern of the right text, overlong ones included, is normalised to the shortest form. *)
Theorem C13_overlong_normalised : forall cps pats b max,
  good_text cps -> Forall2 (fun cp bs => exists n, pattern n cp bs) cps pats ->
  (length (text enc8 cps) <= max <= length b)%nat ->
  exists lp, ConvertToUTF8 Wd1 (concat pats) (Some b) max
             = Ok (Some (stored b (text enc8 cps)), length (text enc8 cps), lp).
Proof.
  intros cps pats b max [G1 G2] HP [H1 H2].
  destruct (convert_spec Wd1 (concat pats) cps (Some b) max H2) as (o & lp & E & K).
  { split; [|now apply scan8_patterns]. unfold byteList.
    clear -HP. induction HP as [|c p cs ps [n P] H IH]; cbn [concat]; [constructor|].
    apply Forall_app. split; auto. exact (pattern_bytes _ _ _ P). }
  exists lp. replace (text enc8 cps) with o; [exact E|].
  eapply keeps_fun; [exact K|]. apply (keeps_all enc8 (Some max) enc8_len_pos cps []); auto.
Qed.
Print Assumptions C13_overlong_normalised.

Example C13_ex : wf_utf8 [0x61; 0xCC; 0x81; 0xF0; 0x9F; 0x98; 0x80].
Proof.
  exists [0x61; 0x301; 0x1F600]. split; [|reflexivity]. split.
  - repeat constructor; try (vm_compute; congruence); intros [A B]; revert A B; vm_compute; congruence.
  - unfold combining. lia.
Qed.
Example C13_ex_overlong : Forall2 (fun cp bs => exists n, pattern n cp bs)
    [0x41; 0x41] [[0xC1; 0x81]; [0xF0; 0x80; 0x81; 0x81]].
Proof.
  repeat constructor; [exists 2%nat|exists 4%nat]; split; reflexivity.
Qed.

(** ** C14 *)
Theorem C14_roundtrip : forall w cps b1 m1 b2 m2,
  good_text cps ->
  (length (text enc8 cps) <= m1 <= length b1)%nat ->
  (length (text (encw w) cps) <= m2 <= length b2)%nat ->
  exists lp,
    ConvertToUTF8 w (text (encw w) cps) (Some b1) m1
      = Ok (Some (stored b1 (text enc8 cps)), length (text enc8 cps), lp)
    /\ ConvertFromUTF8 w (text enc8 cps) (Some b2) m2
      = Ok (Some (stored b2 (text (encw w) cps)), length (text (encw w) cps)).
Proof.
  intros w cps b1 m1 b2 m2 [G1 G2] [H1 H2] [H3 H4].
  destruct (convert_spec w (text (encw w) cps) cps (Some b1) m1 H2) as (o & lp & E & K).
  { destruct w; cbn [scans encw].
    - split; [now apply text8_bytes|now apply scan8_text].
    - now apply scan16_text.
    - apply scan32_text. }
  assert (o = text enc8 cps) as ->.
  { eapply keeps_fun; [exact K|]. apply (keeps_all enc8 (Some m1) enc8_len_pos cps []); auto. }
  exists lp. split; [exact E|].
  destruct (convertfrom_spec w (text enc8 cps) cps (Some b2) m2 H4) as (o2 & E2 & K2).
  { left; discriminate. } { now apply text8_bytes. } { now apply scan8_text. }
  assert (o2 = text (encw w) cps) as ->.
  { apply (takes_all (encw w) (Some m2) (encw_pos w) cps []); auto. }
  exact E2.
Qed.
Print Assumptions C14_roundtrip.

Example C14_ex :
  text enc16 [0x48; 0x20AC; 0x1F600] = [0x48; 0x20AC; 0xD83D; 0xDE00]
  /\ text enc8 [0x48; 0x20AC; 0x1F600] = [0x48; 0xE2; 0x82; 0xAC; 0xF0; 0x9F; 0x98; 0x80]
  /\ good_text [0x48; 0x20AC; 0x1F600].
Proof.
  split; [reflexivity|]. split; [reflexivity|]. split.
  - repeat constructor; try (vm_compute; congruence); intros [A B]; revert A B; vm_compute; congruence.
  - unfold combining. lia.
Qed.

(** ** C15 *)

(** ConvertFromUTF8 decodes a maximal prefix of the scanned code points: it stops at the first one
    which is not allowed, would put a combining mark first, or does not fit. *)
Theorem C15_maximal_prefix : forall w src b max,
  byteList src -> (max <= length b)%nat ->
  exists cps p rest, scan8 src cps /\ cps = p ++ rest /\ good_text p
    /\ ConvertFromUTF8 w src (Some b) max = Ok (Some (stored b (text (encw w) p)), length (text (encw w) p))
    /\ (length (text (encw w) p) <= max)%nat
    /\ match rest with
       | [] => True
       | c :: _ => ~ allowed c \/ (p = [] /\ combining c)
                   \/ (max < length (text (encw w) (p ++ [c])))%nat
       end.
Proof.
  intros w src b max HB HR. destruct (scan8_exists src HB) as [cps Hs].
  destruct (convertfrom_spec w src cps (Some b) max HR ltac:(left; discriminate) HB Hs) as (o & E & K).
  destruct (takes_prefix _ _ _ _ _ K [] eq_refl) as (p & rest & E1 & G & E2 & F & R).
  { split; [constructor|exact I]. } { cbn; lia. }
  cbn [app] in *. subst o. exists cps, p, rest.
  split; [exact Hs|]. split; [exact E1|]. split; [exact G|]. split; [exact E|]. split; [exact F|].
  destruct rest as [|c r]; auto. rewrite text_snoc, app_length.
  unfold accepts in R.
  destruct (allowedb c) eqn:A; [|left; rewrite <- allowedb_spec; congruence].
  apply allowedb_spec in A. right.
  destruct (is_combining c) eqn:C.
  - apply is_combining_spec in C. destruct p as [|q p]; [now left|]. right.
    cbn [fits capof] in R. apply Nat.nle_gt. intros L. apply R. split; [auto|]. split; [|exact L].
    intros E0. exfalso. change (text (encw w) (q :: p)) with (encw w q ++ text (encw w) p) in E0.
    apply app_eq_nil in E0 as [E0 _]. pose proof (encw_pos w q) as P. rewrite E0 in P. cbn in P. lia.
  - right. cbn [fits capof] in R. apply Nat.nle_gt. intros L. apply R. split; [auto|]. split; [|exact L].
    intros _. rewrite <- is_combining_spec. congruence.
Qed.
Print Assumptions C15_maximal_prefix.

Example C15_ex :
  ConvertFromUTF8 Wd2 [0x41; 0xF0; 0x9F; 0x98; 0x80; 0x42] (Some (repeat 0 3)) 3 = Ok (Some [0x41; 0xD83D; 0xDE00], 3%nat)
  /\ ConvertFromUTF8 Wd2 [0x41; 0xF0; 0x9F; 0x98; 0x80; 0x42] (Some (repeat 0 3)) 2 = Ok (Some [0x41; 0; 0], 1%nat).
Proof. split; vm_compute; reflexivity. Qed.

(** The counting pass of ConvertFromUTF8 (NULL destination) works only when the announced size is
    not zero: *)
Theorem C15_counting_needs_size_refuted : exists src,
  ConvertFromUTF8 Wd2 src None 0 = Ok (None, 0%nat) /\ ConvertFromUTF8 Wd2 src None 1 = Ok (None, length src)
  /\ (0 < length src)%nat.
Proof. exists [0x41; 0x42]. repeat split; vm_compute; auto. Qed.
Print Assumptions C15_counting_needs_size_refuted.

(** ** C16: these helpers do not terminate, on any string, because the unqualified call
    strlen(Str) in NextCodePoint is the member function Util::strlen, which calls NextCodePoint. *)
Theorem C16_strlen_diverges_refuted : forall str fuel, util_strlen fuel str = Fuel.
Proof. intros; apply util_strlen_diverges. Qed.
Print Assumptions C16_strlen_diverges_refuted.

(** Starting an iteration (Pos = 0) never returns either. *)
Theorem C16_next_diverges_refuted : forall str fuel s, n_pos s = 0%nat ->
  NextCodePoint (util_strlen fuel) str s = Fuel /\ NextASCII (util_strlen fuel) (S fuel) str s = Fuel.
Proof.
  intros str fuel s H.
  assert (E : NextCodePoint (util_strlen fuel) str s = Fuel).
  { unfold NextCodePoint. rewrite H. cbn [Nat.eqb negb]. now rewrite util_strlen_diverges. }
  split; [exact E|]. cbn [NextASCII]. now rewrite E.
Qed.
Print Assumptions C16_next_diverges_refuted.

(** Searching returns only when it refuses the code point outright. *)
Theorem C16_find_diverges_refuted : forall str fuel cp allow,
  FindCodePoint fuel str cp allow = if (negb allow && is_combining cp)%bool then Ok None else Fuel.
Proof.
  intros str fuel cp allow. unfold FindCodePoint. destruct (_ && _)%bool; [reflexivity|].
  destruct fuel as [|f]; [reflexivity|]. cbn [find_loop].
  destruct (C16_next_diverges_refuted str (S f)
    {| n_pos := 0; n_size := 0; n_next := 0; n_comb := false |} eq_refl) as [E _]. now rewrite E.
Qed.
Print Assumptions C16_find_diverges_refuted.

(** So the allocating ConvertFromUTF8 never returns. *)
Theorem C16_from_alloc_diverges_refuted : forall w str fuel junk, ConvertFromUTF8_alloc fuel w str junk = Fuel.
Proof. intros. unfold ConvertFromUTF8_alloc. now rewrite util_strlen_diverges. Qed.
Print Assumptions C16_from_alloc_diverges_refuted.

Example C16_ex : util_strlen 100 [0x41; 0] = Fuel.
Proof. vm_compute. reflexivity. Qed.

(** ** C17 *)
Theorem C17_combining_exact : forall cp, is_combining cp = true <-> combining cp.
Proof. exact is_combining_spec. Qed.
Print Assumptions C17_combining_exact.

Theorem C17_never_first : forall w src b max o lp c t,
  units w src -> (max <= length b)%nat ->
  ConvertToUTF8 w src (Some b) max = Ok (Some (stored b o), length o, lp) -> (length o <= max)%nat ->
  o = enc8 c ++ t -> allowed c -> ~ combining c.
Proof.
  intros w src b max o lp c t HU HR E HL Eo A.
  destruct (C12_output_wellformed w src b max HU HR) as (o' & lp' & E' & (cps & [G1 G2] & W)).
  rewrite E in E'. inversion E' as [[Q1 Q2 Q3]].
  assert (o = o') by (unfold stored in Q1; apply app_len_inj in Q1; [tauto|auto]). clear Q1 Q2 Q3 E'. subst o'.
  rename H into W.
  destruct (enc8_pattern c (proj1 A)) as [n P].
  destruct (dec8_complete _ _ _ t P) as [D1 _].
  destruct cps as [|d r].
  - cbn in W. exfalso. rewrite Eo in W. apply app_eq_nil in W as [W _].
    pose proof (enc8_len_pos c) as Hp. rewrite W in Hp. cbn in Hp. lia.
  - change (text enc8 (d :: r)) with (enc8 d ++ text enc8 r) in W.
    apply Forall_inv in G1. destruct (enc8_pattern d (proj1 G1)) as [n2 P2].
    destruct (dec8_complete _ _ _ (text enc8 r) P2) as [D2 _].
    rewrite <- W, Eo, D1 in D2. inversion D2; subst. exact G2.
Qed.
Print Assumptions C17_never_first.

Example C17_ex : combining 0x301 /\ ~ combining 0x370 /\
  ConvertToUTF8 Wd4 [0x301; 0x61; 0x301] (Some (repeat 0 4)) 4 = Ok (Some [0x61; 0xCC; 0x81; 0], 3%nat, Some 2%nat).
Proof. unfold combining. split; [lia|]. split; [lia|]. vm_compute. reflexivity. Qed.

(** ** C63: LastPos *)

(** With bytes below 0xE0 only, re-converting the first LastPos bytes gives the same output. *)
Theorem C63_lastpos_short_sequences : forall src b max o p,
  byteList src -> Forall (fun x => x < 0xE0) src -> (max <= length b)%nat ->
  ConvertToUTF8 Wd1 src (Some b) max = Ok (Some (stored b o), length o, Some p) ->
  (p <= length src)%nat /\
  exists lp, ConvertToUTF8 Wd1 (firstn p src) (Some b) max = Ok (Some (stored b o), length o, lp).
Proof.
  intros src b max o p HB HF HR E. unfold ConvertToUTF8 in E.
  destruct (lastpos_resume (Some b) max HR (S (length src)) src ltac:(lia) HB HF 0 [] None o (length o) (Some p)) as
    [[Q _]|(k & cps & Q1 & Q2 & Q3 & o1 & Q4 & Q5 & Q6)]; auto; [discriminate|].
  cbn in Q1. inversion Q1; subst k. split; [lia|].
  assert (HB' : byteList (firstn p src)).
  { unfold byteList in *. rewrite <- (firstn_skipn p src) in HB. apply Forall_app in HB. tauto. }
  destruct (convert_spec Wd1 (firstn p src) cps (Some b) max HR (conj HB' Q3)) as (o2 & lp2 & E2 & K2).
  cbn [capof] in *. rewrite (keeps_fun _ _ _ _ _ _ K2 Q4) in E2.
  exists lp2. rewrite E2, Q5, Q6. reflexivity.
Qed.
Print Assumptions C63_lastpos_short_sequences.

(** In general it does not: a three-byte sequence does not move LastPos at all, so the output after
    re-converting the first LastPos bytes is shorter. *)
Theorem C63_lastpos_refuted : exists src b p o,
  byteList src /\ ConvertToUTF8 Wd1 src (Some b) (length b) = Ok (Some (stored b o), length o, Some p)
  /\ forall o' lp, ConvertToUTF8 Wd1 (firstn p src) (Some b) (length b) = Ok (Some (stored b o'), length o', lp) ->
     (length o' < length o)%nat.
Proof.
  exists [0x41; 0xE2; 0x82; 0xAC], (repeat 0 8), 1%nat, [0x41; 0xE2; 0x82; 0xAC].
  split; [repeat constructor|]. split; [vm_compute; reflexivity|].
  intros o' lp E. assert (L : length o' = 1%nat).
  { assert (H : ConvertToUTF8 Wd1 (firstn 1 [0x41; 0xE2; 0x82; 0xAC]) (Some (repeat 0 8)) (length (repeat 0 8))
      = Ok (Some [0x41; 0; 0; 0; 0; 0; 0; 0], 1%nat, Some 1%nat)) by (vm_compute; reflexivity).
    rewrite H in E. inversion E. reflexivity. }
  rewrite L. cbn. lia.
Qed.
Print Assumptions C63_lastpos_refuted.

Example C63_ex :
  ConvertToUTF8 Wd1 [0x41; 0xC3; 0xA9; 0xFF; 0xCC] (Some (repeat 0 8)) 8
  = Ok (Some (stored (repeat 0 8) [0x41; 0xC3; 0xA9]), 3%nat, Some 3%nat).
Proof. vm_compute. reflexivity. Qed.
