(** Proofs about M_WinAppInfo. *)
From Verif Require Import Base S_Utf8 M_Utf8 P_Utf8 S_AppInfo M_AppInfo P_AppInfo S_WinAppInfo M_WinAppInfo P_WinDir P_WinFile P_WinReal.
Open Scope N_scope.

Lemma ascii_texts t : ascii t -> text enc16 t = t /\ text enc8 t = t /\ good_text t.
Proof.
  intro A. split; [exact (ascii16 0%nat [] eq_refl t A)|split].
  - induction A as [|c t H A IH]; auto. change (text enc8 (c :: t)) with (enc8 c ++ text enc8 t). rewrite IH.
    unfold enc8. now rewrite (proj2 (N.ltb_lt _ _)) by lia.
  - split.
    + eapply Forall_impl; [|exact A]. intros c H. cbn in H. unfold allowed. rewrite N.mod_small by lia. lia.
    + destruct A as [|c t H A]; auto. unfold combining. lia.
Qed.

Lemma to_buffer_spec cps b cap : Forall allowed cps -> (cap <= length b)%nat ->
  exists o, to_buffer (text enc16 cps) b cap = Ok (stored b o, length o) /\ keeps enc8 (Some cap) [] cps o.
Proof.
  intros G L. destruct (convert_spec Wd2 (text enc16 cps) cps (Some b) cap L) as (o & lp & E & K).
  { cbn [scans]. apply scan16_text. exact G. }
  exists o. split; [|exact K]. unfold to_buffer. rewrite E. reflexivity.
Qed.

Lemma stored_hold b o : (length o <= length b)%nat -> hold (stored b o) (length o) o /\ length (stored b o) = length b.
Proof.
  intro L. pose proof (stored_blit 0%nat [] eq_refl b o L) as LL. split; [|exact LL]. unfold hold. rewrite LL.
  split; [lia|]. unfold stored. rewrite firstn_app, Nat.sub_diag, app_nil_r.
  rewrite firstn_all. rewrite firstn_all2 by lia. reflexivity.
Qed.

Lemma put_back_ok b z full : hold b z full -> full <> [] ->
  exists b' z', put_back b z = Ok (b', z') /\ hold b' z' (with_back full) /\ length b' = length b.
Proof.
  intros H Hn. unfold put_back, with_back. destruct (Nat.ltb_spec z (length b)) as [L|L].
  - pose proof H as [Hz Hf]. assert (Lf : (1 <= length full)%nat) by (destruct full; [congruence|cbn; lia]).
    assert (z = length full) by lia. destruct z as [|k]; [lia|].
    rewrite (rd_in b k 0) by lia. cbn [bind].
    assert (Ek : nth k b 0 = last full 0).
    { rewrite last_nth. replace (length full - 1)%nat with k by lia.
      rewrite <- (nth_firstn b (S k) k 0) by lia. rewrite Hf. apply nth_firstn. lia. }
    rewrite Ek. destruct (N.eqb_spec (last full 0) 92) as [E|E]; [eauto|].
    destruct (hold_put b (S k) full 92 H L) as (b' & E1 & H1 & L1). rewrite E1. cbn [bind]. eauto.
  - exists b, z. split; [reflexivity|]. destruct (last full 0 =? 92); split; auto. apply hold_full; auto.
Qed.

Lemma with_back_nonempty t : t <> [] -> with_back t <> [].
Proof. unfold with_back. destruct (last t 0 =? 92); auto. destruct t; cbn; congruence. Qed.

(** Behind the conversion everything is as on the other systems. *)
Lemma rest_ok b0 z0 base app : hold b0 z0 base -> base <> [] ->
  delivered (length b0) (let* (b1, z1) := put_back b0 z0 in
  let* (b3, z3) :=
    match app with
    | None => Ok (b1, z1)
    | Some a => let* (b2, z2) := put_str b1 z1 a in put_back b2 z2
    end in
  let* (b4, z4) := (if (z3 <? length b3)%nat then let* b4 := wr b3 z3 0 in Ok (b4, S z3) else Ok (b3, z3)) in
  if (z4 =? length b4)%nat then Ok (b4, None) else Ok (b4, Some z4)) (wstorage base app).
Proof.
  intros H Hn. unfold wstorage.
  destruct (put_back_ok b0 z0 base H Hn) as (b1 & z1 & E1 & H1 & L1). rewrite E1. cbn [bind].
  destruct app as [a|].
  - destruct (put_str_ok a b1 z1 _ H1) as (b2 & z2 & E2 & H2 & L2). rewrite E2. cbn [bind].
    destruct (put_back_ok b2 z2 _ H2) as (b3 & z3 & E3 & H3 & L3).
    { pose proof (with_back_nonempty base Hn). destruct (with_back base); cbn; congruence. }
    rewrite E3. cbn [bind]. replace (length b0) with (length b3) by congruence. apply finish. exact H3.
  - cbn [bind]. rewrite <- L1. apply finish. exact H1.
Qed.

(** Whatever characters [o] the conversion keeps, the rest is built on them. *)
Lemma WStorage_kept cps b app cap : Forall allowed cps -> (cap <= length b)%nat ->
  exists o, keeps enc8 (Some cap) [] cps o /\ (length o <= cap)%nat /\
    (o <> [] -> delivered (length b) (WStorageDir (text enc16 cps) b app cap) (wstorage o app)).
Proof.
  intros G L. destruct (to_buffer_spec cps b cap G L) as (o & E & K).
  pose proof (keeps_cap _ _ _ _ _ K ltac:(cbn; lia)) as Lo.
  exists o. split; [exact K|]. split; [exact Lo|]. intro Hn. unfold WStorageDir. rewrite E. cbn [bind].
  destruct (stored_hold b o ltac:(lia)) as [H LL]. rewrite <- LL. apply rest_ok; assumption.
Qed.

Lemma keeps_first cap c cps o : 0 < c < 128 -> (1 <= cap)%nat -> keeps enc8 (Some cap) [] (c :: cps) o -> o <> [].
Proof.
  intros Hc Hcap K.
  assert (A : accepts enc8 (Some cap) [] c).
  { unfold accepts, allowed, combining, enc8. rewrite (proj2 (N.ltb_lt _ _)) by lia. rewrite N.mod_small by lia. cbn. lia. }
  inversion K as [|? ? ? ? A' K'|? ? ? ? A' K']; subst; [|contradiction].
  apply keeps_grow in K' as [s ->]. unfold enc8. rewrite (proj2 (N.ltb_lt _ _)) by lia. discriminate.
Qed.

(** Plain text that does not fit is cut, and the cut is noticed. *)
Lemma WStorage_ascii t b app cap : ascii t -> t <> [] -> (cap <= length b)%nat -> (length t <= cap \/ cap = length b)%nat ->
  delivered (length b) (WStorageDir t b app cap) (wstorage t app).
Proof.
  intros A Hn L C. destruct (ascii_texts t A) as (E16 & E8 & G).
  destruct (to_buffer_spec t b cap (proj1 G) L) as (o & E & K). rewrite E16 in E.
  pose proof (keeps_ascii 0%nat [] eq_refl cap t [] o K A ltac:(cbn; lia)) as Eo. cbn [List.app length] in Eo. rewrite Nat.sub_0_r in Eo.
  unfold WStorageDir. rewrite E. cbn [bind]. subst o.
  destruct (stored_hold b (firstn cap t)) as [[H1 H2] LL]. { rewrite firstn_length. lia. }
  rewrite <- LL. apply rest_ok; [|exact Hn]. unfold hold. split.
  - rewrite LL in *. rewrite firstn_length in *. lia.
  - rewrite H2. rewrite LL. rewrite firstn_firstn. destruct C as [C|C].
    + rewrite !firstn_all2 by lia. reflexivity.
    + subst cap. now rewrite Nat.min_id.
Qed.

Lemma WStorage_fits cps b app cap : good_text cps -> cps <> [] -> (cap <= length b)%nat -> (length (text enc8 cps) <= cap)%nat ->
  delivered (length b) (WStorageDir (text enc16 cps) b app cap) (wstorage (text enc8 cps) app).
Proof.
  intros [G1 G2] Hn L F. destruct (WStorage_kept cps b app cap G1 L) as (o & K & Lo & D).
  assert (o = text enc8 cps) as ->.
  { eapply keeps_fun; [exact K|]. apply (keeps_all enc8 (Some cap) enc8_len_pos cps []); [exact G1|intros _; exact G2|exact F]. }
  apply D. destruct cps as [|c cps]; [congruence|]. change (text enc8 (c :: cps)) with (enc8 c ++ text enc8 cps). pose proof (enc8_len_pos c).
  destruct (enc8 c); [cbn in *; lia|discriminate].
Qed.

(** A conversion that is allowed more room than there is runs over the end. *)
Lemma to8_over t : forall b size cap lp x, ascii t -> (length b < cap)%nat -> (size <= length b)%nat -> (length b < size + length t)%nat ->
  to8_2 t x (Some b) size cap lp = UB.
Proof.
  induction t as [|c t IH]; intros b size cap lp x A L1 L2 L3; [cbn in L3; lia|].
  inversion A as [|? ? Hc A']; subst. cbn [to8_2].
  rewrite (proj2 (N.ltb_lt c 0xD800)) by lia. cbn [orb].
  unfold append8, is_excluded, is_combining.
  rewrite nonchar_bits, N.mod_small by lia. rewrite (proj2 (N.leb_gt 0xFFFE c)) by lia.
  rewrite (proj2 (N.leb_gt 0xD800 c)), (proj2 (N.leb_gt 0xFDD0 c)), (proj2 (N.leb_gt 0x300 c)), (proj2 (N.leb_gt 0x1DC0 c)),
    (proj2 (N.leb_gt 0x20D0 c)), (proj2 (N.leb_gt 0xFE20 c)), (proj2 (N.leb_le c 0x7F)) by lia.
  cbn [andb orb]. rewrite andb_false_r. unfold emit. cbn [length]. replace (size + (1 - 1))%nat with size by lia.
  rewrite (proj2 (Nat.leb_gt cap size)) by lia. cbn [put_all].
  destruct (Nat.eq_dec size (length b)) as [->|Hs].
  - unfold wr. now rewrite (proj2 (Nat.ltb_ge _ _)) by lia.
  - rewrite wr_in by lia. cbn [bind]. replace (size + 1)%nat with (S size) by lia.
    apply IH; auto; rewrite ?upd_length; cbn [length] in *; lia.
Qed.
