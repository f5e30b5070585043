(** C32, C33, C61, C65: StaticMixedVar and UTF8MixedVar. *)
From Verif Require Import Base S_Numeral M_ConvertInt S_Utf8 M_Utf8 P_Utf8 M_MixedVar S_MixedVar P_MixedVar.
Open Scope N_scope.

(** What a caller sees of an object: the GetSize() bytes at GetStr(). *)
Definition text_of (v : var) : bytes := firstn (pos v) (str v).

(** The GetSize() bytes are followed by a NUL, inside the buffer. *)
Definition terminated (v : var) : Prop := nth_error (str v) (pos v) = Some 0.

Lemma see size v t x : holds size v t x ->
  text_of v = t /\ length (str v) = size /\ pos v = length t /\ (length t <= size - 1)%nat /\
  nth_error (str v) (pos v) = Some x.
Proof.
  intros H. pose proof (holds_len _ _ _ _ H). destruct H as (tl & -> & E). unfold text_of. cbn [str pos] in *.
  rewrite firstn_app, firstn_all, Nat.sub_diag, firstn_O, app_nil_r.
  rewrite nth_error_app2, Nat.sub_diag by lia. cbn [nth_error]. tauto.
Qed.

Lemma fresh_holds mem : (1 <= length mem)%nat -> holds (length mem) (fresh mem) [] (nth 0 mem 0).
Proof. intros H. exact (holds_any mem 0 ltac:(lia)). Qed.

(** ** C32 *)
(** Any history of operations on a new object, whatever its memory held: no access outside
    the buffer (no undefined behaviour), the size of the buffer is unchanged and the stored
    length stays at most N-1; and once one operation has surely written a terminator
    (SetStr, SetData, AppendStr, AppendData, or SetSize inside the buffer), the byte at the
    stored length is NUL after every operation. *)
Theorem C32_inside_and_terminated : forall mem p, (1 <= length mem)%nat -> Forall valid p ->
  exists v l, run p (fresh mem) = Ok (v, l) /\ length (str v) = length mem /\
    (pos v <= length mem - 1)%nat /\
    (Exists (establishes (length mem)) p -> terminated v).
Proof.
  intros mem p Hm V.
  destruct (run_spec (length mem) p _ _ _ (fresh_holds mem Hm) V) as (v & l & t & x & E & _ & H & T).
  exists v, l. destruct (see _ _ _ _ H) as (_ & El & Ep & L & Ex).
  repeat split; auto; [lia|]. intros X. unfold terminated. rewrite Ex, T; auto.
Qed.

(** REFUTED for an object on which no such operation ran yet: prepending to a new object
    leaves whatever byte was in memory where the terminator should be. *)
Theorem C32_fresh_prepend_refuted : forall junk rest c d, c <> 0 -> d <> 0 ->
  exists v, run [OPrependStr [c] rest] (fresh (d :: 7 :: junk :: rest)) = Ok (v, [true]) /\
    text_of v = [c] /\ ~ terminated v.
Proof.
  intros junk rest c d Hc Hd.
  destruct (exec_spec (3 + length rest) (OPrependStr [c] rest) (fresh (d :: 7 :: junk :: rest)) [] d)
    as (v & a & t & x & E & Ef & H & T).
  - exists (7 :: junk :: rest). split; reflexivity.
  - cbn. auto.
  - pose proof E as E0. cbn [run]. rewrite E. cbn [bind]. inversion Ef; subst. exists v. split; auto.
    destruct (see _ _ _ _ H) as (Et & _). split; [rewrite Et; reflexivity|].
    assert (V : v = Var (c :: d :: junk :: rest) 1).
    { destruct c as [|c]; [congruence|]. cbn in E0. inversion E0. reflexivity. }
    subst v. intros B. inversion B. congruence.
Qed.

(** ** C33 *)
(** Any history of operations on a new object changes the text as the specification says and
    returns the answers it says. *)
Theorem C33_text : forall mem p, (1 <= length mem)%nat -> Forall valid p ->
  exists v l t, run p (fresh mem) = Ok (v, l) /\ text_of v = t /\ history (length mem) [] p t l.
Proof.
  intros mem p Hm V.
  destruct (run_spec (length mem) p _ _ _ (fresh_holds mem Hm) V) as (v & l & t & x & E & Hh & H & T).
  exists v, l, t. destruct (see _ _ _ _ H) as (Et & _). auto.
Qed.

(** The specification leaves no choice (except for SetSize beyond the text, which uncovers
    old memory), and there is exactly one written form of a number. *)
Theorem C33_spec_determined : forall size t o t1 a1 t2 a2, valid o ->
  (forall k, o = OSetSize k -> (k <= length t \/ size <= k)%nat) ->
  effect size t o t1 a1 -> effect size t o t2 a2 -> t1 = t2 /\ a1 = a2.
Proof. exact effect_fun. Qed.

(** REFUTED: a prefix that fits exactly (together with the terminator) is not prepended. *)
Theorem C33_prepend_exact_fit_refuted : forall mem s t rest, (1 <= length mem)%nat ->
  Forall (fun c => c <> 0) s -> Forall (fun c => c <> 0) t ->
  (length t + length s = length mem - 1)%nat ->
  exists v, run [OSetStr t rest; OPrependStr s rest] (fresh mem) = Ok (v, [true; true]) /\ text_of v = t.
Proof.
  intros mem s t rest Hm Fs Ft L.
  destruct (run_spec (length mem) [OSetStr t rest; OPrependStr s rest] _ _ _ (fresh_holds mem Hm))
    as (v & l & t' & x & E & Hh & H & T).
  { repeat constructor; auto. }
  destruct (see _ _ _ _ H) as (Et & _).
  inversion Hh as [|? ? ? ? ? ? ? E1 H2]; subst. inversion E1; subst.
  inversion H2 as [|? ? ? ? ? ? ? E2 H3]; subst. inversion E2; subst. inversion H3; subst.
  exists v. split; auto. rewrite <- H1. unfold prepended.
  rewrite (firstn_all2 t) by lia. rewrite (proj2 (Nat.ltb_ge _ _)) by lia. reflexivity.
Qed.

(** REFUTED: AppendInt of the most negative number negates it, which is undefined. *)
Theorem C33_int64_min_refuted : forall v radix tmp, length tmp = 44%nat ->
  AppendInt v (- 2^63) radix tmp = UB /\ PrependInt v (- 2^63) radix tmp = UB.
Proof.
  intros v radix tmp L. unfold AppendInt, PrependInt, IntToStringI.
  rewrite (proj2 (Z.leb_gt 0 (- 2^63))) by lia. rewrite L. cbn [Nat.ltb Nat.leb].
  rewrite wr_in by lia. split; reflexivity.
Qed.

(** REFUTED: the radix is not checked; radix zero divides by zero. *)
Theorem C33_radix_zero_refuted : forall v n tmp, n <> 0 -> length tmp = 44%nat ->
  AppendUInt v n 0 tmp = UB.
Proof.
  intros v n tmp Hn L. unfold AppendUInt, IntToStringU. rewrite L. cbn [Nat.ltb Nat.leb].
  rewrite wr_in by lia. cbn [bind]. rewrite (proj2 (N.eqb_neq n 0) Hn).
  cbn [Nat.sub its_loop]. rewrite (proj2 (N.eqb_neq n 0) Hn). reflexivity.
Qed.

(** ** C61 *)
(** REFUTED in general: appending one character beyond ASCII never changes the text, however
    large the buffer ([size] wide characters are counted as [size] bytes). *)
Theorem C61_append_multibyte_refuted : forall v x cp,
  nth_error (str v) (pos v) = Some x -> last (text_of v) 1 <> 0 -> 128 <= cp ->
  exists v', AppendUTF8 v [cp] = Ok v' /\ text_of v' = text_of v.
Proof.
  intros v x cp Hx Hl Hc.
  assert (L : (pos v < length (str v))%nat) by (apply nth_error_Some; congruence).
  destruct v as [b n]. cbn [str pos] in *. pose proof (holds_any b n L) as H.
  destruct (AppendUTF8_single_lost _ _ _ _ cp H) as (v' & E & H'); auto.
  exists v'. split; auto. destruct (see _ _ _ _ H') as (-> & _). reflexivity.
Qed.

(** What holds.  ASCII text that fits is appended whole. *)
Theorem C61_append_ascii : forall v s,
  (pos v + length s < length (str v))%nat -> last (text_of v) 1 <> 0 ->
  Forall (fun c => 0 < c < 128) s ->
  exists v', AppendUTF8 v s = Ok v' /\ text_of v' = text_of v ++ s /\ terminated v'.
Proof.
  intros [b n] s L Hl F. cbn [str pos] in *. pose proof (holds_any b n ltac:(lia)) as H.
  destruct (AppendUTF8_ascii _ _ _ _ s H) as (v' & E & H'); auto.
  { rewrite firstn_length. lia. }
  exists v'. split; auto. destruct (see _ _ _ _ H') as (Et & _ & _ & _ & Ex). rewrite Et. auto.
Qed.

(** And for any wide text: nothing outside the buffer is touched, the old text stays in
    front, the result is terminated. *)
Theorem C61_append_inside : forall v src,
  (pos v < length (str v))%nat -> last (text_of v) 1 <> 0 ->
  exists v' s, AppendUTF8 v src = Ok v' /\ text_of v' = text_of v ++ s /\
    length (str v') = length (str v) /\ terminated v'.
Proof.
  intros [b n] src L Hl. cbn [str pos] in *. pose proof (holds_any b n L) as H.
  destruct (AppendUTF8_spec _ _ _ _ src H) as (v' & o & t' & E & K & T & H').
  destruct (see _ _ _ _ H') as (Et & El & _ & _ & Ex).
  change (text_of (Var b n)) with (firstn n b) in *.
  assert (S : exists s, t' = firstn n b ++ s).
  { destruct T as [[T ->]|(_ & _ & ->)]; [|eauto].
    destruct o as [|c o _] using rev_ind.
    - rewrite app_nil_r in *. exfalso. destruct T as [T|T]; [|auto].
      rewrite firstn_length in T. lia.
    - rewrite app_assoc, removelast_last. eauto. }
  destruct S as (s & ->). exists v', s. unfold terminated. auto.
Qed.

(** ** C65 *)
(** SetUTF8 stores the whole UTF-8 form of a text that fits with its terminator. *)
Theorem C65_set_whole : forall v cps,
  good_text cps -> Forall (fun c => c <> 0) cps -> (length (text enc8 cps) < length (str v))%nat ->
  (pos v < length (str v))%nat ->
  exists v', SetUTF8 v cps = Ok v' /\ text_of v' = text enc8 cps /\ terminated v'.
Proof.
  intros [b n] cps G F L Hp. cbn [str pos] in *. pose proof (holds_any b n Hp) as H.
  destruct (SetUTF8_whole _ _ _ _ cps H G F L) as (v' & E & H').
  exists v'. split; auto. destruct (see _ _ _ _ H') as (Et & _ & _ & _ & Ex). rewrite Et. auto.
Qed.

(** For any wide text: exactly the characters the converter keeps within N bytes, less the
    last byte when they fill the buffer or end in NUL; terminated and inside the buffer. *)
Theorem C65_set_exact : forall v src, (pos v < length (str v))%nat ->
  exists v' o, SetUTF8 v src = Ok v' /\ keeps enc8 (Some (length (str v))) [] src o /\
    trimmed (length (str v)) o (text_of v') /\ length (str v') = length (str v) /\ terminated v'.
Proof.
  intros [b n] src Hp. cbn [str pos] in *. pose proof (holds_any b n Hp) as H.
  destruct (SetUTF8_spec _ _ _ _ src H) as (v' & o & t' & E & K & T & H').
  destruct (see _ _ _ _ H') as (Et & El & _ & _ & Ex). exists v', o. unfold terminated. rewrite Et. auto.
Qed.

(** REFUTED: when the converted text fills the buffer exactly, its last character is cut in
    the middle and what is stored is not UTF-8. *)
Theorem C65_set_cuts_character_refuted : exists v cps v',
  good_text cps /\ SetUTF8 v cps = Ok v' /\ ~ wf_utf8 (text_of v').
Proof.
  exists (Var [9; 9; 9] 0), [97; 233], (Var [97; 195; 0] 2). split; [|split].
  - split; [repeat constructor; cbn; intros; try lia; intros E; discriminate|].
    intros E. apply is_combining_spec in E. discriminate.
  - reflexivity.
  - intros (cps & [F _] & E). cbn in E.
    destruct cps as [|c cps]; [discriminate|]. change (text enc8 (c :: cps)) with (enc8 c ++ text enc8 cps) in E.
    assert (X : enc8 c = [97] \/ exists r, enc8 c ++ text enc8 cps = 97 :: r /\ (2 <= length (enc8 c))%nat).
    { unfold enc8 in E |- *. destruct (c <? 128).
      - cbn in E. inversion E. auto.
      - right. exists [195]. destruct (c <? 2048); [|destruct (c <? 65536)]; rewrite <- E; cbn; split; auto; lia. }
    destruct X as [X|(r & X & L)].
    + rewrite X in E. cbn in E. inversion E as [E1].
      destruct cps as [|d cps]; [discriminate|]. change (text enc8 (d :: cps)) with (enc8 d ++ text enc8 cps) in E1.
      unfold enc8 in E1. destruct (N.ltb_spec d 128); [cbn in E1; inversion E1; lia|].
      destruct (d <? 2048); [|destruct (d <? 65536)]; cbn in E1; inversion E1.
    + unfold enc8 in X, L. destruct (N.ltb_spec c 128); [cbn in L; lia|].
      apply (f_equal (hd 0)) in X. destruct (N.ltb_spec c 2048); [|destruct (N.ltb_spec c 65536)]; cbn [app hd] in X; alia.
Qed.

Print Assumptions C32_inside_and_terminated.
Print Assumptions C32_fresh_prepend_refuted.
Print Assumptions C33_text.
Print Assumptions C33_spec_determined.
Print Assumptions C33_prepend_exact_fit_refuted.
Print Assumptions C33_int64_min_refuted.
Print Assumptions C33_radix_zero_refuted.
Print Assumptions C61_append_multibyte_refuted.
Print Assumptions C61_append_ascii.
Print Assumptions C61_append_inside.
Print Assumptions C65_set_whole.
Print Assumptions C65_set_exact.
Print Assumptions C65_set_cuts_character_refuted.

(** A buffer of 12 bytes through a mixed history; the numeral is cut at the end. *)
Definition demo : list op :=
  [OSetStr [97; 98; 99] [1; 2]; OAppendChar 47; OAppendMissingChar 47; OPrependData [120; 0; 121] [5];
   ORemoveTrailingChar 47; ORemoveTrailingChar 47; OAppendInt (-1234567) 10 (repeat 3 44); OSetSize 11].
Example C32_demo_valid : Forall valid demo /\ Exists (establishes 12) demo.
Proof. split; [repeat constructor; cbn; try discriminate; lia|left; exact I]. Qed.
Example C32_demo : match run demo (fresh (repeat 88 12)) with
  | Ok (v, l) => text_of v = [120; 0; 121; 97; 98; 99; 45; 49; 50; 51; 52] /\ nth_error (str v) 11 = Some 0 /\
                 l = [true; true; true; true; true; false; true; true]
  | _ => False end.
Proof. vm_compute. repeat split; reflexivity. Qed.
Example C61_e_acute : AppendUTF8 (Var [97; 0; 7; 7; 7; 7; 7; 7] 1) [233] = Ok (Var [97; 0; 7; 7; 7; 7; 7; 7] 1).
Proof. vm_compute. reflexivity. Qed.
Example C61_ascii : AppendUTF8 (Var [97; 0; 7; 7; 7] 1) [98; 99] = Ok (Var [97; 98; 99; 0; 7] 3).
Proof. vm_compute. reflexivity. Qed.
Example C65_e_acute : SetUTF8 (Var [97; 0; 7; 7; 7] 1) [233; 98] = Ok (Var [195; 169; 98; 0; 7] 3).
Proof. vm_compute. reflexivity. Qed.
