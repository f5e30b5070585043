(** Proofs about M_Utf8 against S_Utf8. *)
From Verif Require Import Base S_Utf8 M_Utf8.
Open Scope N_scope.

(** ** Bit tricks *)

Lemma lor_low a n b : b < 2^n -> N.lor (a * 2^n) b = a * 2^n + b.
Proof.
  intros H.
  assert (E : N.land (a * 2^n) b = 0).
  { rewrite <- N.shiftl_mul_pow2. apply N.bits_inj. intros i. rewrite N.land_spec, N.bits_0.
    destruct (N.lt_ge_cases i n) as [L|G].
    - now rewrite N.shiftl_spec_low.
    - replace (N.testbit b i) with false; [apply andb_false_r|].
      destruct (N.eq_dec b 0) as [->|Hb]; [now rewrite N.bits_0|].
      symmetry. apply N.bits_above_log2. apply N.log2_lt_pow2; [lia|].
      eapply N.lt_le_trans; [exact H|]. apply N.pow_le_mono_r; lia. }
  rewrite <- N.lxor_lor by exact E. symmetry. now apply N.add_nocarry_lxor.
Qed.

Fixpoint allbelow (k : nat) (p : N -> bool) : bool :=
  match k with O => true | S j => p (N.of_nat j) && allbelow j p end.

Lemma allbelow_spec k p n : allbelow k p = true -> n < N.of_nat k -> p n = true.
Proof.
  induction k as [|k IH]; intros H Hn; [lia|]. cbn [allbelow] in H.
  apply andb_true_iff in H as [H1 H2].
  destruct (N.eq_dec n (N.of_nat k)) as [->|Hne]; auto. apply IH; auto. lia.
Qed.

Lemma land_mask_low a m k : m < 2^k -> N.land a m = N.land (a mod 2^k) m.
Proof.
  intros H. rewrite <- N.land_ones. rewrite <- N.land_assoc. f_equal.
  rewrite N.land_comm, N.land_ones. symmetry; now apply N.mod_small.
Qed.

Lemma nonchar_bits cp : (N.land cp 0xFFFE =? 0xFFFE) = (0xFFFE <=? cp mod 0x10000).
Proof.
  assert (E : N.land cp 0xFFFE = N.ldiff (N.land cp (N.ones 16)) (N.ones 1)).
  { change 0xFFFE with (N.ldiff (N.ones 16) (N.ones 1)). apply N.bits_inj. intros i.
    now rewrite N.land_spec, !N.ldiff_spec, N.land_spec, andb_assoc. }
  rewrite E, N.land_ones, N.ldiff_ones_r, N.shiftl_mul_pow2, N.shiftr_div_pow2.
  change (2^16) with 0x10000. change (2^1) with 2.
  assert (H : cp mod 0x10000 < 0x10000) by (apply N.mod_lt; discriminate).
  set (x := cp mod 0x10000) in *. clearbody x. clear E.
  destruct (N.leb_spec 0xFFFE x) as [L|L].
  - apply N.eqb_eq. dlia.
  - apply N.eqb_neq. dlia.
Qed.

(** ** Boolean forms *)

Definition allowedb (cp : N) : bool := negb (is_excluded cp) && (cp <=? 0x10FFFF).

Lemma allowedb_spec cp : allowedb cp = true <-> allowed cp.
Proof.
  unfold allowedb, is_excluded, allowed. rewrite nonchar_bits.
  set (m := cp mod 0x10000). clearbody m. lia.
Qed.

Lemma is_combining_spec cp : is_combining cp = true <-> combining cp.
Proof. unfold is_combining, combining. lia. Qed.

Lemma combining_allowed cp : combining cp -> allowed cp.
Proof. unfold combining, allowed. intros H. repeat split; try lia. dlia. Qed.

(** ** Emitting *)

Lemma put_all_spec us b out tl :
  b = out ++ tl -> (length us <= length tl)%nat ->
  put_all b (length out) us = Ok (out ++ us ++ skipn (length us) tl).
Proof.
  revert b out tl. induction us as [|u r IH]; intros b out tl -> H; cbn [put_all].
  - reflexivity.
  - destruct tl as [|t tl]; cbn [length] in H; [lia|].
    rewrite wr_split by (rewrite app_length; cbn; lia).
    cbn [bind]. rewrite firstn_app, Nat.sub_diag, firstn_all. cbn [firstn].
    rewrite skipn_app. rewrite skipn_all2 by lia.
    replace (S (length out) - length out)%nat with 1%nat by lia. cbn [skipn app].
    rewrite app_nil_r.
    replace (S (length out)) with (length (out ++ [u])) by (rewrite app_length; cbn; lia).
    rewrite (IH _ (out ++ [u]) tl).
    + rewrite <- app_assoc. reflexivity.
    + rewrite <- app_assoc. reflexivity.
    + lia.
Qed.

(** Destination after the units [out] were produced into [d0]. *)
Definition rep (d0 : dst) (out : list N) : dst :=
  match d0 with None => None | Some b => Some (out ++ skipn (length out) b) end.
Definition capof (d0 : dst) (max : nat) : option nat :=
  match d0 with None => None | Some _ => Some max end.
Definition roomy (d0 : dst) (max : nat) : Prop :=
  match d0 with None => True | Some b => (max <= length b)%nat end.
Definition fitsb (cap : option nat) (n : nat) : bool :=
  match cap with None => true | Some m => (n <=? m)%nat end.

Lemma fitsb_spec cap n : fitsb cap n = true <-> fits cap n.
Proof. destruct cap; cbn; [apply Nat.leb_le|tauto]. Qed.

Lemma emit_spec us d0 out max :
  (0 < length us)%nat -> roomy d0 max ->
  emit us (rep d0 out) (length out) max =
  let ok := fitsb (capof d0 max) (length out + length us) in
  let out' := if ok then out ++ us else out in
  Ok (ok, rep d0 out', length out').
Proof.
  intros Hu Hr. unfold emit. destruct d0 as [b|]; cbn [rep capof fitsb roomy] in *.
  - destruct (Nat.leb_spec max (length out + (length us - 1))%nat) as [L|L];
    destruct (Nat.leb_spec (length out + length us) max) as [L2|L2]; try lia; cbn [bind].
    + reflexivity.
    + rewrite (put_all_spec us _ out (skipn (length out) b)); auto.
      * cbn [bind]. rewrite app_length, skipn_skipn, <- app_assoc.
        now rewrite (Nat.add_comm (length us)).
      * rewrite skipn_length. lia.
  - now rewrite app_length.
Qed.

Definition okb (enc : N -> list N) (cap : option nat) (out : list N) (cp : N) : bool :=
  allowedb cp && negb ((length out =? 0)%nat && is_combining cp) && fitsb cap (length out + length (enc cp)).

Lemma okb_spec enc cap out cp : okb enc cap out cp = true <-> accepts enc cap out cp.
Proof.
  unfold okb, accepts. rewrite !andb_true_iff, allowedb_spec, fitsb_spec.
  rewrite negb_true_iff, andb_false_iff.
  assert (E : ((length out =? 0)%nat = false \/ is_combining cp = false) <-> (out = [] -> ~ combining cp)).
  { rewrite <- is_combining_spec. destruct out; cbn [length Nat.eqb].
    - split; [intros [H|H]; congruence|]. intros H. right.
      destruct (is_combining cp); auto. exfalso; apply H; auto.
    - split; [congruence|auto]. }
  tauto.
Qed.

Lemma u8_small n : n < 256 -> u8 n = n.
Proof. apply N.mod_small. Qed.

Lemma enc8_bits cp : cp <= 0x10FFFF ->
  enc8 cp =
  if cp <=? 0x7F then [u8 cp]
  else if cp <=? 0x7FF then [u8 (N.lor 0xC0 (N.shiftr cp 6)); u8 (N.lor 0x80 (N.land cp 0x3F))]
  else if cp <=? 0xFFFF then
    [u8 (N.lor 0xE0 (N.shiftr cp 12)); u8 (N.lor 0x80 (N.land (N.shiftr cp 6) 0x3F));
     u8 (N.lor 0x80 (N.land cp 0x3F))]
  else [u8 (N.lor 0xF0 (N.shiftr cp 18)); u8 (N.lor 0x80 (N.land (N.shiftr cp 12) 0x3F));
     u8 (N.lor 0x80 (N.land (N.shiftr cp 6) 0x3F)); u8 (N.lor 0x80 (N.land cp 0x3F))].
Proof.
  intros Hle.
  assert (L : forall x, N.land x 0x3F = x mod 64) by (intros x; apply (N.land_ones x 6)).
  assert (C : forall x, u8 (N.lor 0x80 (N.land x 0x3F)) = 128 + x mod 64).
  { intros x. rewrite L. assert (Hx : x mod 64 < 64) by (apply N.mod_lt; discriminate).
    change 0x80 with (2 * 2^6). rewrite (lor_low 2 6) by exact Hx. apply u8_small. change (2 * 2^6) with 128. lia. }
  unfold enc8. rewrite !C, !N.shiftr_div_pow2.
  change (2^6) with 64. change (2^12) with 4096. change (2^18) with 262144.
  destruct (N.ltb_spec cp 128), (N.leb_spec cp 0x7F); try lia.
  { rewrite u8_small by lia. reflexivity. }
  destruct (N.ltb_spec cp 2048), (N.leb_spec cp 0x7FF); try lia.
  { assert (D : cp / 64 < 32) by dlia.
    change 0xC0 with (6 * 2^5) at 2. rewrite (lor_low 6 5) by exact D.
    rewrite u8_small by (change (6*2^5) with 192; lia). reflexivity. }
  destruct (N.ltb_spec cp 65536), (N.leb_spec cp 0xFFFF); try lia.
  { assert (D : cp / 4096 < 16) by dlia.
    change 0xE0 with (14 * 2^4) at 2. rewrite (lor_low 14 4) by exact D.
    rewrite u8_small by (change (14*2^4) with 224; lia). reflexivity. }
  { assert (D : cp / 262144 < 8) by dlia.
    change 0xF0 with (30 * 2^3) at 2. rewrite (lor_low 30 3) by exact D.
    rewrite u8_small by (change (30*2^3) with 240; lia). reflexivity. }
Qed.

Lemma enc8_len_pos cp : (0 < length (enc8 cp))%nat.
Proof. unfold enc8. repeat (destruct (_ <? _)); cbn; lia. Qed.

Lemma append8_spec cp d0 out max :
  roomy d0 max ->
  append8 cp (rep d0 out) (length out) max =
  let ok := okb enc8 (capof d0 max) out cp in
  let out' := if ok then out ++ enc8 cp else out in
  Ok (ok, rep d0 out', length out').
Proof.
  intros Hr. unfold append8, okb, allowedb. cbv zeta.
  destruct (is_excluded cp); cbn [negb andb]; [reflexivity|].
  destruct ((length out =? 0)%nat && is_combining cp)%bool; cbn [negb andb].
  { rewrite andb_false_r. reflexivity. }
  destruct (N.leb_spec cp 0x10FFFF) as [L|L]; cbn [andb].
  - rewrite <- (emit_spec (enc8 cp)) by (auto using enc8_len_pos).
    rewrite (enc8_bits cp L).
    destruct (cp <=? 0x7F); [reflexivity|]. destruct (cp <=? 0x7FF); [reflexivity|].
    destruct (cp <=? 0xFFFF); reflexivity.
  - destruct (N.leb_spec cp 0x7F); [lia|]. destruct (N.leb_spec cp 0x7FF); [lia|].
    destruct (N.leb_spec cp 0xFFFF); [lia|]. reflexivity.
Qed.

(** ** Decoding bytes *)

Lemma byte_sweep (p : N -> bool) a : allbelow 256 p = true -> a < 256 -> p a = true.
Proof. intros H Ha. apply (allbelow_spec 256 p a H). exact Ha. Qed.

Lemma lead2 a : a < 256 -> (N.land a 0xE0 =? 0xC0) = ((192 <=? a) && (a <? 224)).
Proof.
  intros H. apply Bool.eqb_prop.
  apply (byte_sweep (fun a => Bool.eqb (N.land a 0xE0 =? 0xC0) ((192 <=? a) && (a <? 224)))); auto.
Qed.
Lemma lead3 a : a < 256 -> (N.land a 0xF0 =? 0xE0) = ((224 <=? a) && (a <? 240)).
Proof.
  intros H. apply Bool.eqb_prop.
  apply (byte_sweep (fun a => Bool.eqb (N.land a 0xF0 =? 0xE0) ((224 <=? a) && (a <? 240)))); auto.
Qed.
Lemma lead4 a : a < 256 -> (N.land a 0xF8 =? 0xF0) = ((240 <=? a) && (a <? 248)).
Proof.
  intros H. apply Bool.eqb_prop.
  apply (byte_sweep (fun a => Bool.eqb (N.land a 0xF8 =? 0xF0) ((240 <=? a) && (a <? 248)))); auto.
Qed.
Lemma contb a : a < 256 -> is_cont a = ((128 <=? a) && (a <? 192)).
Proof.
  intros H. apply Bool.eqb_prop.
  apply (byte_sweep (fun a => Bool.eqb (is_cont a) ((128 <=? a) && (a <? 192)))); auto.
Qed.

Lemma merge2 a b : 192 <= a < 224 -> 128 <= b < 192 ->
  N.lor (N.shiftl (N.land a 0x1F) 6) (N.land b 0x3F) = (a - 192) * 64 + (b - 128).
Proof.
  intros Ha Hb.
  rewrite (N.land_ones a 5 : N.land a 0x1F = _), (N.land_ones b 6 : N.land b 0x3F = _).
  rewrite N.shiftl_mul_pow2, lor_low by (apply N.mod_lt; discriminate).
  change (2^5) with 32. change (2^6) with 64. dlia.
Qed.
Lemma merge3 a b c : 224 <= a < 240 -> 128 <= b < 192 -> 128 <= c < 192 ->
  N.lor (N.lor (N.shiftl (N.land a 0x0F) 12) (N.shiftl (N.land b 0x3F) 6)) (N.land c 0x3F)
  = (a - 224) * 4096 + (b - 128) * 64 + (c - 128).
Proof.
  intros Ha Hb Hc.
  rewrite (N.land_ones a 4 : N.land a 0x0F = _), (N.land_ones b 6 : N.land b 0x3F = _),
    (N.land_ones c 6 : N.land c 0x3F = _).
  rewrite !N.shiftl_mul_pow2.
  assert (Hb' : b mod 2^6 < 64) by (apply N.mod_lt; discriminate).
  assert (Hc' : c mod 2^6 < 2^6) by (apply N.mod_lt; discriminate).
  rewrite lor_low by (change (2^6) with 64 at 2; change (2^12) with 4096; lia).
  replace (a mod 2 ^ 4 * 2 ^ 12 + b mod 2 ^ 6 * 2 ^ 6) with ((a mod 2^4 * 64 + b mod 2^6) * 2^6)
    by (change (2^12) with 4096; change (2^6) with 64; lia).
  rewrite lor_low by exact Hc'.
  change (2^4) with 16. change (2^6) with 64. clear Hb' Hc'.
  assert (E1 : a mod 16 = a - 224) by dlia.
  assert (E2 : b mod 64 = b - 128) by dlia.
  assert (E3 : c mod 64 = c - 128) by dlia.
  rewrite E1, E2, E3. lia.
Qed.
Lemma merge4 a b c d : 240 <= a < 248 -> 128 <= b < 192 -> 128 <= c < 192 -> 128 <= d < 192 ->
  N.lor (N.lor (N.lor (N.shiftl (N.land a 0x07) 18) (N.shiftl (N.land b 0x3F) 12))
               (N.shiftl (N.land c 0x3F) 6)) (N.land d 0x3F)
  = (a - 240) * 262144 + (b - 128) * 4096 + (c - 128) * 64 + (d - 128).
Proof.
  intros Ha Hb Hc Hd.
  rewrite (N.land_ones a 3 : N.land a 0x07 = _), (N.land_ones b 6 : N.land b 0x3F = _),
    (N.land_ones c 6 : N.land c 0x3F = _), (N.land_ones d 6 : N.land d 0x3F = _).
  rewrite !N.shiftl_mul_pow2.
  assert (Hb' : b mod 2^6 < 64) by (apply N.mod_lt; discriminate).
  assert (Hc' : c mod 2^6 < 64) by (apply N.mod_lt; discriminate).
  assert (Hd' : d mod 2^6 < 2^6) by (apply N.mod_lt; discriminate).
  rewrite lor_low by (change (2^12) with 4096; change (2^18) with 262144; lia).
  replace (a mod 2 ^ 3 * 2 ^ 18 + b mod 2 ^ 6 * 2 ^ 12) with ((a mod 2^3 * 64 + b mod 2^6) * 2^12)
    by (change (2^18) with 262144; change (2^12) with 4096; lia).
  rewrite lor_low by (change (2^12) with 4096; change (2^6) with 64 at 2; lia).
  replace ((a mod 2 ^ 3 * 64 + b mod 2 ^ 6) * 2^12 + c mod 2^6 * 2^6)
    with ((a mod 2^3 * 4096 + b mod 2^6 * 64 + c mod 2^6) * 2^6)
    by (change (2^12) with 4096; change (2^6) with 64; lia).
  rewrite lor_low by exact Hd'.
  change (2^3) with 8. change (2^6) with 64. change (2^6) with 64 in Hd'. clear Hb' Hc' Hd'.
  assert (E1 : a mod 8 = a - 240) by dlia.
  assert (E2 : b mod 64 = b - 128) by dlia.
  assert (E3 : c mod 64 = c - 128) by dlia.
  assert (E4 : d mod 64 = d - 128) by dlia.
  rewrite E1, E2, E3, E4. lia.
Qed.

Lemma dec8_complete n cp s r : pattern n cp s -> dec8 (s ++ r) = (Some cp, n) /\ length s = n.
Proof.
  destruct n as [|[|[|[|[|n]]]]]; cbn [pattern]; try tauto; intros [Hc ->]; cbn [app dec8 nth length].
  - change (2^7) with 128 in Hc. destruct (N.leb_spec cp 0x7F); [auto|lia].
  - change (2^11) with 2048 in Hc.
    assert (D : cp / 64 < 32) by dlia. assert (M : cp mod 64 < 64) by (apply N.mod_lt; discriminate).
    destruct (N.leb_spec (192 + cp / 64) 0x7F); [alia|].
    rewrite lead2, contb by alia.
    assert (B : ((192 <=? 192 + cp / 64) && (192 + cp / 64 <? 224)
      && ((128 <=? 128 + cp mod 64) && (128 + cp mod 64 <? 192)))%bool = true) by alia.
    rewrite B, merge2 by alia. split; auto. do 2 f_equal.
    clear B. pose proof (N.div_mod cp 64 ltac:(discriminate)). alia.
  - change (2^16) with 65536 in Hc.
    assert (D : cp / 4096 < 16) by dlia.
    assert (M : cp mod 64 < 64) by (apply N.mod_lt; discriminate).
    assert (M2 : cp / 64 mod 64 < 64) by (apply N.mod_lt; discriminate).
    destruct (N.leb_spec (224 + cp / 4096) 0x7F); [alia|].
    rewrite lead2, lead3, !contb by alia.
    assert (B0 : ((192 <=? 224 + cp / 4096) && (224 + cp / 4096 <? 224))%bool = false) by alia.
    rewrite B0. cbn [andb].
    assert (B : ((224 <=? 224 + cp / 4096) && (224 + cp / 4096 <? 240)
      && ((128 <=? 128 + cp / 64 mod 64) && (128 + cp / 64 mod 64 <? 192))
      && ((128 <=? 128 + cp mod 64) && (128 + cp mod 64 <? 192)))%bool = true) by alia.
    rewrite B, merge3 by alia. split; auto. do 2 f_equal.
    clear B B0. pose proof (N.div_mod cp 64 ltac:(discriminate)).
    pose proof (N.div_mod (cp / 64) 64 ltac:(discriminate)).
    rewrite N.div_div in * by discriminate. change (64 * 64) with 4096 in *. alia.
  - change (2^21) with 2097152 in Hc.
    assert (D : cp / 262144 < 8) by dlia.
    assert (M : cp mod 64 < 64) by (apply N.mod_lt; discriminate).
    assert (M2 : cp / 64 mod 64 < 64) by (apply N.mod_lt; discriminate).
    assert (M3 : cp / 4096 mod 64 < 64) by (apply N.mod_lt; discriminate).
    destruct (N.leb_spec (240 + cp / 262144) 0x7F); [alia|].
    rewrite lead2, lead3, lead4, !contb by alia.
    assert (B0 : ((192 <=? 240 + cp / 262144) && (240 + cp / 262144 <? 224))%bool = false) by alia.
    assert (B1 : ((224 <=? 240 + cp / 262144) && (240 + cp / 262144 <? 240))%bool = false) by alia.
    rewrite B0, B1. cbn [andb].
    assert (B : ((240 <=? 240 + cp / 262144) && (240 + cp / 262144 <? 248)
      && ((128 <=? 128 + cp / 4096 mod 64) && (128 + cp / 4096 mod 64 <? 192))
      && ((128 <=? 128 + cp / 64 mod 64) && (128 + cp / 64 mod 64 <? 192))
      && ((128 <=? 128 + cp mod 64) && (128 + cp mod 64 <? 192)))%bool = true) by alia.
    rewrite B, merge4 by alia. split; auto. do 2 f_equal.
    clear B B0 B1. pose proof (N.div_mod cp 64 ltac:(discriminate)).
    pose proof (N.div_mod (cp / 64) 64 ltac:(discriminate)).
    pose proof (N.div_mod (cp / 4096) 64 ltac:(discriminate)).
    rewrite !N.div_div in * by discriminate.
    change (64 * 64) with 4096 in *. change (4096 * 64) with 262144 in *. alia.
Qed.

Lemma pat2 a b : 192 <= a < 224 -> 128 <= b < 192 -> pattern 2 ((a - 192) * 64 + (b - 128)) [a; b].
Proof.
  intros Ha Hb. cbn [pattern]. change (2^11) with 2048. split; [lia|].
  f_equal; [|f_equal]; dlia.
Qed.
Lemma pat3 a b c : 224 <= a < 240 -> 128 <= b < 192 -> 128 <= c < 192 ->
  pattern 3 ((a - 224) * 4096 + (b - 128) * 64 + (c - 128)) [a; b; c].
Proof.
  intros Ha Hb Hc. cbn [pattern]. change (2^16) with 65536. split; [lia|].
  set (x := (a - 224) * 4096 + (b - 128) * 64 + (c - 128)).
  assert (E1 : x / 64 = (a - 224) * 64 + (b - 128)) by (unfold x; dlia).
  f_equal; [|f_equal; [|f_equal]]; [unfold x; dlia|rewrite E1; dlia|unfold x; dlia].
Qed.
Lemma pat4 a b c d : 240 <= a < 248 -> 128 <= b < 192 -> 128 <= c < 192 -> 128 <= d < 192 ->
  pattern 4 ((a - 240) * 262144 + (b - 128) * 4096 + (c - 128) * 64 + (d - 128)) [a; b; c; d].
Proof.
  intros Ha Hb Hc Hd. cbn [pattern]. change (2^21) with 2097152. split; [lia|].
  set (x := (a - 240) * 262144 + (b - 128) * 4096 + (c - 128) * 64 + (d - 128)).
  assert (E1 : x / 64 = (a - 240) * 4096 + (b - 128) * 64 + (c - 128)) by (unfold x; dlia).
  assert (E2 : x / 4096 = (a - 240) * 64 + (b - 128)) by (unfold x; dlia).
  f_equal; [|f_equal; [|f_equal; [|f_equal]]];
    [unfold x; dlia|rewrite E2; dlia|rewrite E1; dlia|unfold x; dlia].
Qed.

Lemma dec8_sound src cp n : byteList src -> dec8 src = (Some cp, n) ->
  exists s r, src = s ++ r /\ pattern n cp s /\ skipn n src = r.
Proof.
  unfold byteList. intros HB E. destruct src as [|a r]; [discriminate|].
  inversion HB as [|? ? Ha HB1]; subst. unfold isByte in Ha.
  cbn [dec8] in E. destruct (N.leb_spec a 0x7F) as [L|L].
  { inversion E; subst. exists [cp], r. cbn [pattern]. change (2^7) with 128.
    split; [reflexivity|]. split; [split; [lia|reflexivity]|reflexivity]. }
  rewrite lead2, lead3, lead4 in E by exact Ha.
  destruct r as [|b r]; [discriminate|].
  inversion HB1 as [|? ? Hb HB2]; subst. unfold isByte in Hb. rewrite (contb b Hb) in E. cbn [nth] in E.
  destruct ((192 <=? a) && (a <? 224) && ((128 <=? b) && (b <? 192)))%bool eqn:T2.
  { assert (Q : 192 <= a < 224 /\ 128 <= b < 192) by lia. destruct Q as [Qa Qb].
    rewrite merge2 in E by assumption. inversion E; subst.
    exists [a; b], r. split; [reflexivity|]. split; [|reflexivity]. now apply pat2. }
  destruct r as [|c r]; [discriminate|].
  inversion HB2 as [|? ? Hc HB3]; subst. unfold isByte in Hc. rewrite (contb c Hc) in E. cbn [nth] in E.
  destruct ((224 <=? a) && (a <? 240) && ((128 <=? b) && (b <? 192)) && ((128 <=? c) && (c <? 192)))%bool eqn:T3.
  { assert (Q : 224 <= a < 240 /\ 128 <= b < 192 /\ 128 <= c < 192) by lia. destruct Q as (Qa & Qb & Qc).
    rewrite merge3 in E by assumption. inversion E; subst.
    exists [a; b; c], r. split; [reflexivity|]. split; [|reflexivity]. now apply pat3. }
  destruct r as [|d r]; [discriminate|].
  inversion HB3 as [|? ? Hd HB4]; subst. unfold isByte in Hd. rewrite (contb d Hd) in E. cbn [nth] in E.
  destruct ((240 <=? a) && (a <? 248) && ((128 <=? b) && (b <? 192)) && ((128 <=? c) && (c <? 192)) && ((128 <=? d) && (d <? 192)))%bool eqn:T4.
  { assert (Q : 240 <= a < 248 /\ 128 <= b < 192 /\ 128 <= c < 192 /\ 128 <= d < 192) by lia.
    destruct Q as (Qa & Qb & Qc & Qd).
    rewrite merge4 in E by assumption. inversion E; subst.
    exists [a; b; c; d], r. split; [reflexivity|]. split; [|reflexivity]. now apply pat4. }
  discriminate.
Qed.

Lemma dec8_none src n : dec8 src = (None, n) -> n = 1%nat /\ forall k cp s t, src = s ++ t -> ~ pattern k cp s.
Proof.
  intros E. split.
  - destruct src as [|a r]; [now inversion E|]. cbn [dec8] in E.
    destruct (a <=? 0x7F); [discriminate|].
    cbn [nth] in E.
    repeat match type of E with (if ?c then _ else _) = _ => destruct c; [discriminate|] end.
    now inversion E.
  - intros k cp s t -> P. pose proof (dec8_complete _ _ _ t P) as [H _]. congruence.
Qed.

Lemma dec8_len src cp n : dec8 src = (Some cp, n) -> (1 <= n)%nat.
Proof.
  destruct src as [|a r]; [discriminate|]. cbn [dec8].
  destruct (a <=? 0x7F); [intros E; inversion E; lia|].
  intros E. repeat match type of E with (if ?c then _ else _) = _ => destruct c; [inversion E; lia|] end.
  discriminate.
Qed.

(** Every byte string scans in exactly one way. *)
Lemma scan8_exists src : byteList src -> exists cps, scan8 src cps.
Proof.
  remember (length src) as k eqn:Hk. assert (H : (length src <= k)%nat) by lia. clear Hk.
  revert src H. induction k as [|k IH]; intros src H HB.
  - destruct src; cbn in H; [|lia]. exists []; constructor.
  - destruct src as [|a r]; [exists []; constructor|].
    destruct (dec8 (a :: r)) as [[cp|] n] eqn:E.
    + destruct (dec8_sound _ _ _ HB E) as (s & t & E1 & P & _). rewrite E1.
      destruct (dec8_complete _ _ _ t P) as [_ Hl]. pose proof (dec8_len _ _ _ E).
      destruct (IH t) as [cps Hc].
      * apply (f_equal (@length N)) in E1. rewrite app_length in E1. cbn [length] in *. lia.
      * unfold byteList in *. rewrite E1 in HB. apply Forall_app in HB. tauto.
      * exists (cp :: cps). econstructor; eauto.
    + destruct (dec8_none _ _ E) as [-> Hn].
      destruct (IH r) as [cps Hc]; [cbn in H; lia|inversion HB; auto|].
      exists cps. apply sc_skip; auto.
Qed.

Lemma scan8_unique src cps cps' : scan8 src cps -> scan8 src cps' -> cps = cps'.
Proof.
  intros H. revert cps'. induction H as [|n cp s r cps P H IH|b r cps Hn H IH]; intros cps' H'.
  - inversion H' as [|n cp s r cps P H E|]; auto.
    exfalso. apply app_eq_nil in E as [-> ->].
    destruct n as [|[|[|[|[|n]]]]]; cbn in P; try tauto; now destruct P.
  - pose proof (dec8_complete _ _ _ r P) as [D L].
    inversion H' as [E|n2 cp2 s2 r2 cps2 P2 H2 E|b2 r2 cps2 Hn2 H2 E]; subst.
    + symmetry in E. apply app_eq_nil in E as [-> ->]. now destruct cp.
    + pose proof (dec8_complete _ _ _ r2 P2) as [D2 L2].
      rewrite <- E in D. rewrite D2 in D. inversion D; subst.
      assert (s2 = s /\ r2 = r) as [-> ->].
      { apply app_len_inj; auto. }
      f_equal. now apply IH.
    + exfalso. eapply Hn2; [|exact P]. eassumption.
  - inversion H' as [|n2 cp2 s2 r2 cps2 P2 H2 E|b2 r2 cps2 Hn2 H2 E]; subst.
    + exfalso. eapply Hn; [|exact P2]. now rewrite E.
    + now apply IH.
Qed.

(** ** The converters as folds over the scanned code points *)

Lemma rep_nil d0 : rep d0 [] = d0.
Proof. now destruct d0. Qed.

Lemma keeps_step enc cap out cp r o :
  keeps enc cap (if okb enc cap out cp then out ++ enc cp else out) r o -> keeps enc cap out (cp :: r) o.
Proof.
  destruct (okb enc cap out cp) eqn:E; intros H.
  - apply k_take; auto. now apply okb_spec.
  - apply k_drop; auto. rewrite <- okb_spec. congruence.
Qed.

Lemma skipn_pat s (r : list N) n : length s = n -> skipn n (s ++ r) = r.
Proof. intros <-. now rewrite skipn_app, skipn_all, Nat.sub_diag. Qed.

Lemma dec8_scan src cps : byteList src -> scan8 src cps ->
  (src = [] /\ cps = [])
  \/ (src <> [] /\ exists n cp r cps', dec8 src = (Some cp, n) /\ skipn n src = r /\ cps = cp :: cps'
              /\ scan8 r cps' /\ (length r < length src)%nat /\ byteList r)
  \/ (src <> [] /\ dec8 src = (None, 1%nat) /\ scan8 (skipn 1 src) cps /\ (length (skipn 1 src) < length src)%nat
              /\ byteList (skipn 1 src)).
Proof.
  intros HB Hs. inversion Hs as [|n cp s r cps' P H|b r cps' Hn H]; subst.
  - now left.
  - right; left. destruct (dec8_complete _ _ _ r P) as [D L]. pose proof (dec8_len _ _ _ D) as Hn.
    split; [destruct s; cbn in *; [lia|discriminate]|].
    exists n, cp, r, cps'. rewrite skipn_pat by exact L. rewrite app_length.
    unfold byteList in *. apply Forall_app in HB. intuition lia.
  - right; right. split; [discriminate|]. destruct (dec8 (b :: r)) as [[cp|] n] eqn:D.
    + exfalso. destruct (dec8_sound _ _ _ HB D) as (s & t & E & P & _). eapply Hn; eauto.
    + destruct (dec8_none _ _ D) as [-> _]. cbn [skipn length]. inversion HB; subst.
      intuition lia.
Qed.

Lemma to8_1_spec d0 max : roomy d0 max -> forall fuel src cps, (length src < fuel)%nat -> byteList src -> scan8 src cps ->
  forall x out lp, exists o lp',
    to8_1 fuel src x (rep d0 out) (length out) max lp = Ok (rep d0 o, length o, lp')
    /\ keeps enc8 (capof d0 max) out cps o.
Proof.
  intros Hr fuel. induction fuel as [|f IH]; intros src cps Hf HB Hs x out lp; [lia|].
  cbn [to8_1].
  destruct (dec8_scan _ _ HB Hs) as [[-> ->]|[(Hne & n & cp & r & cps' & D & Sk & -> & H & L & HB')|(Hne & D & H & L & HB')]].
  - exists out, lp. split; [reflexivity|constructor].
  - destruct src as [|h t]; [congruence|]. rewrite D, Sk.
    rewrite (append8_spec cp d0 out max Hr). cbv zeta. cbn [bind].
    edestruct (IH r cps') as (o & lp' & E & K); [lia|assumption|assumption|].
    exists o, lp'. split; [exact E|]. apply keeps_step. exact K.
  - destruct src as [|h t]; [congruence|]. rewrite D.
    apply IH; [lia|assumption|assumption].
Qed.

Lemma pair_bits h l : 0xD800 <= h < 0xDC00 -> 0xDC00 <= l < 0xE000 ->
  N.lor (N.shiftl (h - 0xD800) 10) (l - 0xDC00) + 0x10000 = 65536 + (h - 0xD800) * 1024 + (l - 0xDC00).
Proof.
  intros Hh Hl. rewrite N.shiftl_mul_pow2, lor_low by (change (2^10) with 1024; lia).
  change (2^10) with 1024. lia.
Qed.

Lemma to8_2_spec d0 max : roomy d0 max -> forall src cps, scan16 src cps ->
  forall x out lp, exists o lp',
    to8_2 src x (rep d0 out) (length out) max lp = Ok (rep d0 o, length o, lp')
    /\ keeps enc8 (capof d0 max) out cps o.
Proof.
  intros Hr src cps Hs. induction Hs as [|u r cps Hu H IH|h l r cps Hh Hl H IH|h u r cps Hh Hu H IH|h Hh];
    intros x out lp; cbn [to8_2].
  - exists out, lp. split; [reflexivity|constructor].
  - assert (B : ((u <? 0xD800) || (0xDBFF <? u))%bool = true) by lia. rewrite B.
    rewrite (append8_spec u d0 out max Hr). cbv zeta. cbn [bind].
    edestruct IH as (o & lp' & E & K). exists o, lp'. split; [exact E|]. apply keeps_step; exact K.
  - assert (B : ((h <? 0xD800) || (0xDBFF <? h))%bool = false) by lia. rewrite B.
    assert (B2 : ((0xDC00 <=? l) && (l <=? 0xDFFF))%bool = true) by lia. rewrite B2. cbv zeta.
    rewrite (append8_spec _ d0 out max Hr). rewrite pair_bits by lia. cbv zeta. cbn [bind].
    edestruct IH as (o & lp' & E & K). exists o, lp'. split; [exact E|]. apply keeps_step; exact K.
  - assert (B : ((h <? 0xD800) || (0xDBFF <? h))%bool = false) by lia. rewrite B.
    assert (B2 : ((0xDC00 <=? u) && (u <=? 0xDFFF))%bool = false) by lia. rewrite B2.
    apply IH.
  - assert (B : ((h <? 0xD800) || (0xDBFF <? h))%bool = false) by lia. rewrite B.
    exists out, lp. split; [reflexivity|constructor].
Qed.

Lemma to8_4_spec d0 max : roomy d0 max -> forall src x out lp, exists o lp',
    to8_4 src x (rep d0 out) (length out) max lp = Ok (rep d0 o, length o, lp')
    /\ keeps enc8 (capof d0 max) out src o.
Proof.
  intros Hr src. induction src as [|a r IH]; intros x out lp; cbn [to8_4].
  - exists out, lp. split; [reflexivity|constructor].
  - rewrite (append8_spec a d0 out max Hr). cbv zeta. cbn [bind].
    edestruct IH as (o & lp' & E & K). exists o, lp'. split; [exact E|]. apply keeps_step; exact K.
Qed.

(** What the source of a given unit width means. *)
Definition scans (w : width) (src cps : list N) : Prop :=
  match w with
  | Wd1 => byteList src /\ scan8 src cps
  | Wd2 => scan16 src cps
  | Wd4 => src = cps
  end.

Lemma convert_spec w src cps d0 max : roomy d0 max -> scans w src cps ->
  exists o lp, ConvertToUTF8 w src d0 max = Ok (rep d0 o, length o, lp)
               /\ keeps enc8 (capof d0 max) [] cps o.
Proof.
  intros Hr Hs. unfold ConvertToUTF8. destruct w; cbn [scans] in Hs.
  - destruct Hs as [HB Hs].
    destruct (to8_1_spec d0 max Hr (S (length src)) src cps ltac:(lia) HB Hs 0%nat [] None) as (o & lp & E & K).
    rewrite rep_nil in E. eauto.
  - destruct (to8_2_spec d0 max Hr src cps Hs 0%nat [] None) as (o & lp & E & K).
    rewrite rep_nil in E. eauto.
  - subst cps. destruct (to8_4_spec d0 max Hr src 0%nat [] None) as (o & lp & E & K).
    rewrite rep_nil in E. eauto.
Qed.

Definition units (w : width) (src : list N) : Prop :=
  match w with Wd1 => byteList src | Wd2 => Forall (fun u => u < 65536) src | Wd4 => Forall (fun u => u < 2^32) src end.

Lemma scan16_exists src : exists cps, scan16 src cps.
Proof.
  remember (length src) as k eqn:Hk. assert (H : (length src <= k)%nat) by lia. clear Hk.
  revert src H. induction k as [|k IH]; intros src H.
  - destruct src; cbn in H; [|lia]. exists []; constructor.
  - destruct src as [|u r]; [exists []; constructor|]. cbn [length] in H.
    destruct (N.ltb_spec u 0xD800); [|destruct (N.ltb_spec u 0xDC00)].
    + destruct (IH r) as [c Hc]; [lia|]. exists (u :: c). apply s16_one; auto. lia.
    + destruct r as [|l r]; [exists []; now constructor|]. cbn [length] in H.
      destruct (IH r) as [c Hc]; [lia|].
      destruct (N.ltb_spec l 0xDC00); [|destruct (N.ltb_spec l 0xE000)].
      * exists c. apply s16_bad; auto. lia.
      * eexists. apply s16_two; [lia|lia|exact Hc].
      * exists c. apply s16_bad; auto. lia.
    + destruct (IH r) as [c Hc]; [lia|]. exists (u :: c). apply s16_one; auto. lia.
Qed.

Lemma scans_exists w src : units w src -> exists cps, scans w src cps.
Proof.
  destruct w; cbn [units scans]; intros H.
  - destruct (scan8_exists src H) as [c Hc]; eauto.
  - apply scan16_exists.
  - eauto.
Qed.

(** ** Properties of [keeps] *)

Lemma text_app enc a b : text enc (a ++ b) = text enc a ++ text enc b.
Proof. unfold text. now rewrite map_app, concat_app. Qed.

Lemma text_snoc enc a c : text enc (a ++ [c]) = text enc a ++ enc c.
Proof. rewrite text_app. unfold text at 2. cbn. now rewrite app_nil_r. Qed.

Lemma good_snoc pre c : good_text pre -> allowed c -> (pre = [] -> ~ combining c) -> good_text (pre ++ [c]).
Proof.
  intros [F H] A N. split; [apply Forall_app; auto|]. destruct pre; cbn; auto.
Qed.

Lemma keeps_good enc cap : (forall c, (0 < length (enc c))%nat) ->
  forall out cps o, keeps enc cap out cps o -> forall pre, good_text pre -> out = text enc pre ->
  exists k, good_text k /\ o = text enc k.
Proof.
  intros Hp out cps o H. induction H as [out|out cp r o A H IH|out cp r o A H IH]; intros pre G E; eauto.
  destruct A as (A1 & A2 & A3).
  eapply (IH (pre ++ [cp])); [|rewrite text_snoc; now subst].
  apply good_snoc; auto. intros ->. apply A2. now subst.
Qed.

Lemma keeps_cap enc m out cps o : keeps enc (Some m) out cps o -> (length out <= m)%nat -> (length o <= m)%nat.
Proof.
  intros H. induction H as [out|out cp r o A H IH|out cp r o A H IH]; intros L; auto.
  apply IH. destruct A as (_ & _ & A). cbn in A. now rewrite app_length.
Qed.

Lemma keeps_grow enc cap out cps o : keeps enc cap out cps o -> exists s, o = out ++ s.
Proof.
  intros H. induction H as [out|out cp r o A H IH|out cp r o A H IH].
  - exists []. now rewrite app_nil_r.
  - destruct IH as [s ->]. rewrite <- app_assoc. eauto.
  - assumption.
Qed.

Lemma keeps_unbounded enc m out cps o : keeps enc None out cps o -> (length o <= m)%nat ->
  keeps enc (Some m) out cps o.
Proof.
  intros H. induction H as [out|out cp r o A H IH|out cp r o A H IH]; intros L.
  - constructor.
  - apply k_take; auto. destruct A as (A1 & A2 & _). split; [auto|]. split; [auto|].
    cbn. apply keeps_grow in H as [s ->]. rewrite !app_length in L. lia.
  - apply k_drop; auto. intros (A1 & A2 & A3). apply A. split; [auto|]. split; [auto|]. exact I.
Qed.

Lemma keeps_fun enc cap out cps o o' : keeps enc cap out cps o -> keeps enc cap out cps o' -> o = o'.
Proof.
  intros H. revert o'. induction H as [out|out cp r o A H IH|out cp r o A H IH]; intros o' H'; inversion H'; subst; auto;
    contradiction.
Qed.

Lemma keeps_all enc cap : (forall c, (0 < length (enc c))%nat) -> forall cps out,
  Forall allowed cps -> (out = [] -> match cps with [] => True | c :: _ => ~ combining c end) ->
  fits cap (length out + length (text enc cps)) -> keeps enc cap out cps (out ++ text enc cps).
Proof.
  intros Hp cps. induction cps as [|c r IH]; intros out F G Hf.
  - cbn. rewrite app_nil_r. constructor.
  - inversion F; subst. change (text enc (c :: r)) with (enc c ++ text enc r) in *.
    rewrite app_length in Hf.
    apply k_take.
    + split; [auto|]. split; [auto|]. destruct cap; cbn in *; auto. lia.
    + rewrite app_assoc. apply IH; auto.
      * intros E. exfalso. apply app_eq_nil in E as [_ E]. specialize (Hp c). rewrite E in Hp. cbn in Hp; lia.
      * rewrite app_length. destruct cap; cbn in *; auto. lia.
Qed.

(** ** Encodings scan back *)

Lemma enc8_pattern cp : cp <= 0x10FFFF -> exists n, pattern n cp (enc8 cp).
Proof.
  intros H. unfold enc8.
  destruct (N.ltb_spec cp 128); [exists 1%nat; split; [exact H0|reflexivity]|].
  destruct (N.ltb_spec cp 2048); [exists 2%nat; split; [exact H1|reflexivity]|].
  destruct (N.ltb_spec cp 65536); [exists 3%nat; split; [exact H2|reflexivity]|].
  exists 4%nat; split; [change (2^21) with 2097152; lia|reflexivity].
Qed.

Lemma scan8_patterns cps pats : Forall2 (fun cp bs => exists n, pattern n cp bs) cps pats -> scan8 (concat pats) cps.
Proof.
  intros H. induction H as [|cp bs cps pats [n P] H IH]; cbn [concat]; [constructor|].
  eapply sc_cp; eauto.
Qed.

Lemma scan8_text cps : Forall allowed cps -> scan8 (text enc8 cps) cps.
Proof.
  intros H. apply scan8_patterns. induction H as [|c r A H IH]; cbn [map]; constructor; auto.
  apply enc8_pattern. apply A.
Qed.

Lemma pattern_bytes n cp bs : pattern n cp bs -> byteList bs.
Proof.
  unfold byteList, isByte. destruct n as [|[|[|[|[|n]]]]]; cbn [pattern]; try tauto; intros [H ->];
  repeat (constructor; [|]); try constructor.
  - change (2^7) with 128 in H. lia.
  - change (2^11) with 2048 in H. assert (cp / 64 < 32) by dlia. lia.
  - pose proof (N.mod_lt cp 64 ltac:(discriminate)). lia.
  - change (2^16) with 65536 in H. assert (cp / 4096 < 16) by dlia. lia.
  - pose proof (N.mod_lt (cp / 64) 64 ltac:(discriminate)). lia.
  - pose proof (N.mod_lt cp 64 ltac:(discriminate)). lia.
  - change (2^21) with 2097152 in H. assert (cp / 262144 < 8) by dlia. lia.
  - pose proof (N.mod_lt (cp / 4096) 64 ltac:(discriminate)). lia.
  - pose proof (N.mod_lt (cp / 64) 64 ltac:(discriminate)). lia.
  - pose proof (N.mod_lt cp 64 ltac:(discriminate)). lia.
Qed.

Lemma text8_bytes cps : Forall allowed cps -> byteList (text enc8 cps).
Proof.
  intros H. unfold byteList, text. induction H as [|c r A H IH]; cbn [map concat]; [constructor|].
  apply Forall_app. split; auto. destruct (enc8_pattern c) as [n P]; [apply A|]. exact (pattern_bytes _ _ _ P).
Qed.

Lemma scan16_text cps : Forall allowed cps -> scan16 (text enc16 cps) cps.
Proof.
  intros H. induction H as [|c r A H IH]; [constructor|].
  change (text enc16 (c :: r)) with (enc16 c ++ text enc16 r). unfold enc16.
  destruct A as (A1 & A2 & _).
  destruct (N.ltb_spec c 65536); cbn [app].
  - apply s16_one; auto. lia.
  - assert (D : (c - 65536) / 1024 < 1024) by dlia.
    assert (M : (c - 65536) mod 1024 < 1024) by (apply N.mod_lt; discriminate).
    pose proof (N.div_mod (c - 65536) 1024 ltac:(discriminate)) as DM.
    assert (E : c = 65536 + (0xD800 + (c - 65536) / 1024 - 0xD800) * 1024 + (0xDC00 + (c - 65536) mod 1024 - 0xDC00)) by alia.
    set (d := (c - 65536) / 1024) in *. set (m := (c - 65536) mod 1024) in *. clearbody d m.
    rewrite E at 1. apply s16_two; auto; lia.
Qed.

Lemma scan32_text cps : text enc32 cps = cps.
Proof. unfold text, enc32. induction cps; cbn; congruence. Qed.

(** ** Converting from UTF-8 *)

Definition encw (w : width) : N -> list N :=
  match w with Wd1 => enc8 | Wd2 => enc16 | Wd4 => enc32 end.

Lemma encw_pos w c : (0 < length (encw w c))%nat.
Proof. destruct w; cbn; [apply enc8_len_pos| |lia]. unfold enc16. destruct (_ <? _); cbn; lia. Qed.

Lemma enc16_bits cp : cp <= 0x10FFFF ->
  enc16 cp = if 0xFFFF <? cp then
    [u16 (N.land (N.shiftr (cp - 0x10000) 10) 0x3FF + 0xD800); u16 (N.land (cp - 0x10000) 0x3FF + 0xDC00)]
  else [u16 cp].
Proof.
  intros H. unfold enc16, u16.
  destruct (N.ltb_spec cp 65536), (N.ltb_spec 0xFFFF cp); try lia.
  - now rewrite N.mod_small.
  - rewrite (N.land_ones _ 10 : N.land _ 0x3FF = _), (N.land_ones (cp - 0x10000) 10 : N.land _ 0x3FF = _).
    rewrite N.shiftr_div_pow2. change (2^10) with 1024.
    assert (D : (cp - 65536) / 1024 < 1024) by dlia.
    assert (M : (cp - 65536) mod 1024 < 1024) by (apply N.mod_lt; discriminate).
    rewrite (N.mod_small ((cp - 65536) / 1024)) by exact D.
    set (d := (cp - 65536) / 1024) in *. set (m := (cp - 65536) mod 1024) in *. clearbody d m.
    rewrite !N.mod_small by lia. f_equal; [lia|f_equal; lia].
Qed.

Lemma appendW_spec w cp d0 out max :
  roomy d0 max ->
  appendW w cp (rep d0 out) (length out) max =
  let ok := okb (encw w) (capof d0 max) out cp in
  let out' := if ok then out ++ encw w cp else out in
  Ok (ok, rep d0 out', length out').
Proof.
  intros Hr. destruct w; cbn [encw]; [now apply append8_spec| |];
  unfold appendW, okb, allowedb; cbv zeta.
  - destruct (is_excluded cp); cbn [negb andb orb]; [reflexivity|].
    destruct (N.leb_spec cp 0x10FFFF) as [L|L], (N.ltb_spec 0x10FFFF cp); try lia; cbn [andb]; [|reflexivity].
    destruct ((length out =? 0)%nat && is_combining cp)%bool; cbn [negb andb]; [reflexivity|].
    rewrite <- (emit_spec (enc16 cp)) by (auto; apply (encw_pos Wd2)).
    rewrite (enc16_bits cp L). destruct (0xFFFF <? cp); reflexivity.
  - destruct (is_excluded cp); cbn [negb andb orb]; [reflexivity|].
    destruct (N.leb_spec cp 0x10FFFF) as [L|L], (N.ltb_spec 0x10FFFF cp); try lia; cbn [andb]; [|reflexivity].
    destruct ((length out =? 0)%nat && is_combining cp)%bool; cbn [negb andb]; [reflexivity|].
    rewrite <- (emit_spec (enc32 cp)) by (auto; apply (encw_pos Wd4)). reflexivity.
Qed.

Lemma from8_spec w d0 max : roomy d0 max -> (0 < max)%nat -> forall fuel src cps,
  (length src < fuel)%nat -> byteList src -> scan8 src cps ->
  forall out, exists o,
    from8 fuel w src (rep d0 out) (length out) max = Ok (rep d0 o, length o)
    /\ takes (encw w) (capof d0 max) out cps o.
Proof.
  intros Hr Hm fuel. induction fuel as [|f IH]; intros src cps Hf HB Hs out; [lia|].
  cbn [from8]. destruct (Nat.eqb_spec max 0) as [->|_]; [lia|].
  destruct (dec8_scan _ _ HB Hs) as [[-> ->]|[(Hne & n & cp & r & cps' & D & Sk & -> & H & L & HB')|(Hne & D & H & L & HB')]].
  - exists out. split; [reflexivity|constructor].
  - destruct src as [|h t]; [congruence|]. rewrite D, Sk.
    rewrite (appendW_spec w cp d0 out max Hr). cbv zeta. cbn [bind].
    destruct (okb (encw w) (capof d0 max) out cp) eqn:Eo.
    + edestruct (IH r cps') as (o & E & K); [lia|assumption|assumption|].
      exists o. split; [exact E|]. apply t_take; auto. now apply okb_spec.
    + exists out. split; [reflexivity|]. apply t_stop. rewrite <- okb_spec. congruence.
  - destruct src as [|h t]; [congruence|]. rewrite D. apply IH; [lia|assumption|assumption].
Qed.

Lemma convertfrom_spec w src cps d0 max : roomy d0 max -> (d0 <> None \/ (0 < max)%nat) ->
  byteList src -> scan8 src cps ->
  exists o, ConvertFromUTF8 w src d0 max = Ok (rep d0 o, length o)
            /\ takes (encw w) (capof d0 max) [] cps o.
Proof.
  intros Hr Hm HB Hs. unfold ConvertFromUTF8.
  destruct max as [|m].
  - destruct d0 as [b|]; [|exfalso; destruct Hm; [congruence|lia]].
    exists []. split.
    + cbn [from8 Nat.eqb]. destruct src; cbn [rep length skipn app]; reflexivity.
    + destruct cps as [|c r]; [constructor|]. apply t_stop. intros (_ & _ & A). cbn in A. pose proof (encw_pos w c). lia.
  - destruct (from8_spec w d0 (S m) Hr ltac:(lia) (S (length src)) src cps ltac:(lia) HB Hs []) as (o & E & K).
    rewrite rep_nil in E. eauto.
Qed.

Lemma takes_prefix enc cap : forall out cps o, takes enc cap out cps o -> forall pre, out = text enc pre -> good_text pre ->
  fits cap (length out) ->
  exists p rest, cps = p ++ rest /\ good_text (pre ++ p) /\ o = text enc (pre ++ p) /\ fits cap (length o)
    /\ match rest with [] => True | c :: _ => ~ accepts enc cap o c end.
Proof.
  intros out cps o H. induction H as [out|out cp r o A H IH|out cp r A]; intros pre E G F.
  - exists [], []. rewrite !app_nil_r. subst. auto 8.
  - destruct A as (A1 & A2 & A3).
    destruct (IH (pre ++ [cp])) as (p & rest & Hr & G' & Ho & F' & Hrest).
    + rewrite text_snoc. now subst.
    + apply good_snoc; auto. intros ->. apply A2. now subst.
    + rewrite app_length. exact A3.
    + exists (cp :: p), rest. rewrite <- app_assoc in G', Ho. cbn [app] in *.
      split; [now subst|]. auto.
  - exists [], (cp :: r). rewrite !app_nil_r. subst. auto 8.
Qed.

Lemma takes_all enc cap : (forall c, (0 < length (enc c))%nat) -> forall cps out o,
  Forall allowed cps -> (out = [] -> match cps with [] => True | c :: _ => ~ combining c end) ->
  fits cap (length out + length (text enc cps)) -> takes enc cap out cps o -> o = out ++ text enc cps.
Proof.
  intros Hp cps. induction cps as [|c r IH]; intros out o F G Hf H.
  - inversion H; subst. cbn. now rewrite app_nil_r.
  - inversion F; subst. change (text enc (c :: r)) with (enc c ++ text enc r) in *.
    rewrite app_length in Hf.
    assert (A : accepts enc cap out c).
    { split; [auto|]. split; [auto|]. destruct cap; cbn in *; auto. lia. }
    inversion H; subst; [|contradiction].
    rewrite app_assoc. apply IH; auto.
    * intros E. exfalso. apply app_eq_nil in E as [_ E]. specialize (Hp c). rewrite E in Hp. cbn in Hp; lia.
    * rewrite app_length. destruct cap; cbn in *; auto. lia.
Qed.

(** ** Divergence of the parser helpers *)

Lemma util_strlen_diverges fuel str : util_strlen fuel str = Fuel.
Proof.
  revert str. induction fuel as [|f IH]; intros str; [reflexivity|].
  cbn [util_strlen strlen_loop]. unfold NextCodePoint at 1. cbn [n_pos Nat.eqb negb].
  rewrite IH. reflexivity.
Qed.

(** ** LastPos *)

Lemma short_pattern src cp n : byteList src -> Forall (fun b => b < 0xE0) src -> dec8 src = (Some cp, n) -> (n <= 2)%nat.
Proof.
  intros HB HF D. destruct (dec8_sound _ _ _ HB D) as (s & t & E & P & _).
  destruct n as [|[|[|[|[|n]]]]]; cbn [pattern] in P; try tauto; try lia; destruct P as [_ ->];
  rewrite E in HF; apply Forall_inv in HF; cbv beta in HF; exfalso; clear -HF; alia.
Qed.

Lemma firstn_pat (s r : list N) k : (length s <= k)%nat -> firstn k (s ++ r) = s ++ firstn (k - length s) r.
Proof. intros H. rewrite firstn_app. f_equal. now apply firstn_all2. Qed.

Lemma lastpos_resume d0 max : roomy d0 max -> forall fuel src, (length src < fuel)%nat ->
  byteList src -> Forall (fun b => b < 0xE0) src ->
  forall x out lp o n lp', to8_1 fuel src x (rep d0 out) (length out) max lp = Ok (rep d0 o, n, lp') ->
  n = length o -> 
  (lp' = lp /\ n = length out) \/
  (exists k cps1, lp' = Some (x + k)%nat /\ (0 < k <= length src)%nat /\ scan8 (firstn k src) cps1
     /\ exists o1, keeps enc8 (capof d0 max) out cps1 o1 /\ length o1 = n /\ rep d0 o1 = rep d0 o).
Proof.
  intros Hr fuel. induction fuel as [|f IH]; intros src Hf HB HF x out lp o n lp' R En; [lia|].
  cbn [to8_1] in R. destruct (scan8_exists src HB) as [cps Hs].
  destruct (dec8_scan _ _ HB Hs) as [[-> ->]|[(Hne & m & cp & r & cps' & D & Sk & -> & H & L & HB')|(Hne & D & H & L & HB')]].
  - left. inversion R; subst. auto.
  - destruct src as [|h t]; [congruence|]. rewrite D, Sk in R.
    rewrite (append8_spec cp d0 out max Hr) in R. cbv zeta in R. cbn [bind] in R.
    pose proof (short_pattern _ _ _ HB HF D) as Hm. pose proof (dec8_len _ _ _ D) as Hm1.
    destruct (dec8_sound _ _ _ HB D) as (s & r' & E & P & Sk2). rewrite Sk in Sk2. subst r'.
    destruct (dec8_complete _ _ _ r P) as [_ Ls].
    assert (HF' : Forall (fun b => b < 0xE0) r). { rewrite E in HF. apply Forall_app in HF. tauto. }
    set (ok := okb enc8 (capof d0 max) out cp) in *.
    assert (LL : (length (h :: t) = m + length r)%nat) by (rewrite E, app_length; lia).
    destruct (IH r ltac:(lia) HB' HF' _ _ _ _ _ _ R En) as [[E1 E2]|(k & c1 & E1 & E2 & E3 & o1 & E4 & E5 & E6)].
    + destruct ok eqn:Eok.
      * right. exists m, [cp]. split.
        { destruct (Nat.eqb_spec m 3); [lia|]. destruct (Nat.eqb_spec m 4); [lia|]. exact E1. }
        split; [lia|]. split.
        { rewrite E, firstn_pat by lia. rewrite Ls, Nat.sub_diag. cbn [firstn].
          econstructor; [exact P|constructor]. }
        exists (out ++ enc8 cp). split; [|split].
        -- apply keeps_step. fold ok. rewrite Eok. constructor.
        -- auto.
        -- destruct d0 as [b|]; [|reflexivity]. cbn [rep].
           (* the rest of the run appended nothing *)
           destruct (to8_1_spec (Some b) max Hr f r cps' ltac:(lia) HB' H (x+m)%nat (out ++ enc8 cp)
             (if (m =? 3)%nat then lp else if (m =? 4)%nat then Some x else Some (x + m)%nat)) as (o2 & lp2 & R2 & K2).
           rewrite R2 in R. inversion R as [[Q1 Q2 Q3]]. cbn [rep] in Q1.
           apply keeps_grow in K2 as [z ->].
           assert (z = []) as ->. { destruct z; auto. exfalso. rewrite E2 in Q2. rewrite app_length in Q2. cbn in Q2. lia. }
           now rewrite app_nil_r.
      * left. split; auto.
    + right. exists (m + k)%nat, (cp :: c1). split; [rewrite E1; f_equal; lia|]. split; [lia|]. split.
      { rewrite E, firstn_pat by lia. rewrite Ls. replace (m + k - m)%nat with k by lia.
        econstructor; [exact P|exact E3]. }
      exists o1. split; [|auto]. apply keeps_step. exact E4.
  - destruct src as [|h t]; [congruence|]. rewrite D in R. cbn [skipn] in *.
    assert (HF' : Forall (fun b => b < 0xE0) t) by (inversion HF; auto).
    destruct (IH t ltac:(cbn [length] in *; lia) HB' HF' _ _ _ _ _ _ R En) as [[E1 E2]|(k & c1 & E1 & E2 & E3 & o1 & E4 & E5 & E6)].
    + left; auto.
    + right. exists (S k), c1. split; [rewrite E1; f_equal; lia|]. split; [cbn [length] in *; lia|]. split.
      { cbn [firstn]. apply sc_skip; auto. intros k1 cp1 s1 t1 Es P1.
        destruct (dec8_none _ _ D) as [_ Hn]. apply (Hn k1 cp1 s1 (t1 ++ skipn k t)); auto.
        rewrite app_assoc, <- Es. cbn [app]. f_equal. symmetry. apply firstn_skipn. }
      eauto.
Qed.
