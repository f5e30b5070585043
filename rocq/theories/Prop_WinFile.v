(** C85-C87, C89 and C90: Windows files, directories, times, links and permissions. *)
From Coq Require Import String Ascii.
From Verif Require Import Base P_MixedVar S_File S_WinFile S_Utf8 M_File M_Utf8 M_WinFile P_File P_Utf8 P_WinFile.
Open Scope N_scope.
Open Scope string_scope.
Open Scope list_scope.
Open Scope N_scope.
Local Arguments N.pow : simpl never.
Local Arguments W64 : simpl never.
Local Arguments DWORD : simpl never.
Local Ltac conv E := match goal with |- context [ConvertToUTF8 ?a ?b ?c ?d] => let X := fresh in assert (X : ConvertToUTF8 a b c d = _) by exact E; rewrite X; clear X end.

(** ** C85 *)

(** As long as less than 2^32 bytes are to be transferred at once, any sequence of operations on
    a file just opened gives the answers, the contents and the position of the specification,
    whatever ReadFile and WriteFile do (short transfers, failures). *)
Theorem C85_tracks : forall er ew n c, N.of_nat (List.length c) < 2 ^ 62 -> (forall k, ew k <> Part 0) ->
  let (f, d) := fresh_file RDWR c in wtracks er ew n f d (AFile c 0).
Proof.
  intros er ew n c Hc He. destruct (fresh_file RDWR c) as [f d] eqn:E. apply wtracks_ok; [exact He|].
  apply (fresh_sync RDWR c _ _ E); [discriminate|exact Hc].
Qed.
Print Assumptions C85_tracks.

(** A file opened only for writing is not read, one opened only for reading not written, and a closed
    one neither; the position and the contents stay. *)
Theorem C85_modes : forall er ew c n x,
  (let (f, d) := fresh_file WRONLY c in WRead er f d n = (f, d, false, []) /\ WRead er (Close f) d n = (Close f, d, false, [])) /\
  (let (f, d) := fresh_file RDONLY c in WWrite ew f d x = (f, d, false, 0) /\ WRead er (Close f) d n = (Close f, d, false, [])) /\
  (let (f, d) := fresh_file RDWR c in WWrite ew (Close f) d x = (Close f, d, false, 0)).
Proof. intros. repeat split. Qed.
Print Assumptions C85_modes.

(** Beyond that the property is false.  However much WriteFile would take, only the size modulo
    2^32 is written; for a multiple of 2^32 that is nothing, and true is returned. *)
Theorem C85_write_refuted : forall ew f d a rr x k, sync rr true f d a -> x <> [] -> N.of_nat (List.length x) mod 2 ^ 32 = 0 ->
  ew (used d) = Part k ->
  exists f' d', WWrite ew f d x = (f', d', true, 0) /\ data d' = content a /\ curr f' = apos a.
Proof.
  intros ew f d a rr x k (H1 & H2 & H3 & H4 & H5 & H6 & H7 & H8 & H9) Hx Hm Ek. unfold WWrite. rewrite H1, H3. cbn [negb orb].
  destruct (Nat.eqb_spec (List.length x) 0) as [E|_]; [destruct x; [congruence|discriminate]|].
  unfold dword, DWORD. rewrite Hm. cbn [N.to_nat firstn]. rewrite (sys_write_part ew d [] k) by (assumption || (rewrite H5, H4; exact H8)).
  rewrite firstn_nil. cbn [List.length N.of_nat]. do 2 eexists. split; [reflexivity|]. cbn [data curr]. rewrite overwrite_nil, N.add_0_r. split; [exact H4|].
  rewrite H6. apply w64_small. rewrite P62_val, W64_val in *. lia.
Qed.
Print Assumptions C85_write_refuted.

(** In the same way a read of 2^32 bytes, or a multiple, gives none although they are there, as
    if the end of the file had been reached. *)
Theorem C85_read_refuted : forall er f d a ww n k, sync true ww f d a -> n <> 0 -> n mod 2 ^ 32 = 0 -> n <= size a - apos a -> er (used d) = Part k ->
  exists f' d', WRead er f d n = (f', d', true, []) /\ curr f' = apos a /\ apos a < size a.
Proof.
  intros er f d a ww n k (H1 & H2 & H3 & H4 & H5 & H6 & H7 & H8 & H9) Hn Hm Hr Ek. unfold WRead, UpdateMaxPos. rewrite H1, H2. cbn [negb orb fst].
  rewrite H7, H6, sub64_le by exact H8. destruct (N.ltb_spec (size a - apos a) n) as [X|_]; [lia|].
  destruct (N.eqb_spec n 0) as [X|_]; [lia|]. unfold dword, DWORD. rewrite Hm. unfold sys_read. rewrite Ek. cbn [N.to_nat Nat.min firstn List.length N.of_nat].
  do 2 eexists. split; [reflexivity|]. cbn [curr]. rewrite H6, N.add_0_r. split; [apply w64_small; rewrite P62_val, W64_val in *; lia|lia].
Qed.
Print Assumptions C85_read_refuted.

Lemma of_length n : exists x : bytes, N.of_nat (List.length x) = n.
Proof. exists (repeat 7 (N.to_nat n)). rewrite repeat_length. apply N2Nat.id. Qed.

(** There are such requests: *)
Theorem C85_reachable_refuted : exists c x, N.of_nat (List.length c) < 2 ^ 62 /\ x <> [] /\ N.of_nat (List.length x) = 2 ^ 32 /\
  forall er ew, er O = Part 1 -> ew O = Part (List.length x) ->
  let (f, d) := fresh_file RDWR c in
  (exists f' d', WWrite ew f d x = (f', d', true, 0) /\ data d' = c) /\
  (exists f' d', WRead er f d (2 ^ 32) = (f', d', true, []) /\ curr f' = 0 /\ 0 < N.of_nat (List.length c)).
Proof.
  destruct (of_length (2 ^ 32)) as [x L]. exists x, x. assert (Lx : N.of_nat (List.length x) < 2 ^ 62) by (rewrite L; reflexivity).
  split; [exact Lx|]. split; [intros ->; discriminate L|]. split; [exact L|]. intros er ew Er Ew.
  destruct (fresh_file RDWR x) as [f d] eqn:E. pose proof (fresh_sync RDWR x f d E ltac:(discriminate) Lx) as S. cbv iota in S.
  assert (U : used d = O) by (unfold fresh_file in E; injection E as _ <-; reflexivity).
  split.
  - destruct (C85_write_refuted ew f d _ _ x (List.length x) S) as (f' & d' & E1 & E2 & _); [intros ->; discriminate L|rewrite L; reflexivity|rewrite U; exact Ew|].
    exists f', d'. split; [exact E1|exact E2].
  - destruct (C85_read_refuted er f d _ _ (2 ^ 32) 1 S) as (f' & d' & E1 & E2 & E3); [discriminate|reflexivity| |rewrite U; exact Er|].
    + unfold size. cbn [content apos]. rewrite L. reflexivity.
    + exists f', d'. split; [exact E1|]. split; [exact E2|exact E3].
Qed.
Print Assumptions C85_reachable_refuted.

Example C85_ex : let sched := fun k => nth k [Part 2; Part 9; Part 3] Fail in
  exists f d f1 d1 f2 d2 f3 d3, fresh_file RDWR [1; 2; 3] = (f, d) /\
  WWrite sched f d [7; 8; 9] = (f1, d1, true, 2) /\ data d1 = [7; 8; 3] /\
  WRead sched f1 d1 5 = (f2, d2, true, [3]) /\ WWrite sched f2 d2 [4; 5] = (f3, d3, true, 2) /\ data d3 = [7; 8; 3; 4; 5] /\ curr f3 = 5 /\
  snd (fst (WWrite sched f3 d3 [1])) = false.
Proof.
  do 8 eexists. do 7 (split; [vm_compute; reflexivity|]). vm_compute. reflexivity.
Qed.

(** ** C86 *)

(** The program that reads the names of a directory into one buffer until Read fails. *)
Fixpoint wlisting (fuel : nat) (e : list (list N)) (b : bytes) : res (list bytes * list (list N)) :=
  match fuel with
  | O => Fuel
  | S g =>
      let* (e1, b1, ok) := WDir_Read e b in
      if ok then let* n := cstr b1 in let* (l, e2) := wlisting g e1 b1 in Ok (n :: l, e2)
      else Ok ([], e1)
  end.

Lemma wdir_step n r b : good_text n -> (List.length (text enc8 n) + 1 <= List.length b)%nat ->
  WDir_Read (text enc16 n :: r) b =
    Ok ((if (List.length b =? List.length (text enc8 n) + 1)%nat then text enc16 n :: r else r), stored b (text enc8 n ++ [0]),
        negb (List.length b =? List.length (text enc8 n) + 1)%nat).
Proof.
  intros G L. unfold WDir_Read. destruct (to8_all (n ++ repeat 0 1) b) as [lp E].
  - apply good_zeros. exact G.
  - rewrite text_app, zeros8, app_length. exact L.
  - rewrite !text_app, zeros8, zeros16 in E. cbn [repeat] in E. conv E. cbn [bind]. rewrite app_length. cbn [List.length].
    destruct (_ =? _)%nat; reflexivity.
Qed.

Lemma stored_length b o : (List.length o <= List.length b)%nat -> List.length (stored b o) = List.length b.
Proof. intro H. unfold stored. rewrite app_length, skipn_length. lia. Qed.

Lemma stored_cstr b n : ~ In 0 n -> cstr (stored b (text enc8 n ++ [0])) = Ok (text enc8 n).
Proof. intro H. unfold stored. rewrite <- app_assoc. apply cstr_app. apply text8_nz. exact H. Qed.

(** With at least one byte more than name and terminator need, every name is read, in order and
    converted to UTF-8, and then the directory is closed. *)
Theorem C86_visits : forall names b fuel, (List.length names < fuel)%nat ->
  Forall (fun n => good_text n /\ ~ In 0 n /\ (List.length (text enc8 n) + 2 <= List.length b)%nat) names ->
  wlisting fuel (map (text enc16) names) b = Ok (map (text enc8) names, []).
Proof.
  induction names as [|n names IH]; intros b fuel Hf F; (destruct fuel as [|g]; [cbn in Hf; lia|]); [reflexivity|]. cbn [wlisting map].
  destruct (Forall_inv F) as (G & Z & L). rewrite wdir_step by (exact G || lia).
  destruct (Nat.eqb_spec (List.length b) (List.length (text enc8 n) + 1)) as [X|_]; [lia|]. cbn [negb bind].
  rewrite stored_cstr by exact Z. cbn [bind].
  rewrite IH; [reflexivity|cbn [List.length] in Hf; lia|]. apply Forall_inv_tail in F. eapply Forall_impl; [|exact F]. cbv beta. intros m (Gm & Zm & Lm).
  split; [exact Gm|]. split; [exact Zm|]. rewrite stored_length; [exact Lm|]. rewrite app_length. cbn [List.length]. lia.
Qed.
Print Assumptions C86_visits.

(** The buffer is never exceeded, whatever the names are. *)
Theorem C86_fits : forall e b, Forall (units Wd2) e -> exists e1 b1 ok, WDir_Read e b = Ok (e1, b1, ok) /\ List.length b1 = List.length b.
Proof.
  intros [|n e] b F; [do 3 eexists; split; reflexivity|]. unfold WDir_Read. apply Forall_inv in F.
  destruct (scans_exists Wd2 (n ++ [0])) as [cps Hs].
  { exact I || (apply Forall_app; split; [exact F|repeat constructor]). }
  destruct (convert_spec Wd2 (n ++ [0]) cps (Some b) (List.length b) (le_n _) Hs) as (o & lp & E & K). conv E. cbn [bind].
  pose proof (keeps_cap _ _ _ _ _ K (Nat.le_0_l _)) as L. 
  destruct (_ =? _)%nat; do 3 eexists; (split; [reflexivity|]); rewrite app_length, skipn_length; lia.
Qed.
Print Assumptions C86_fits.

(** The property as stated is false.  A buffer into which the name just fits is refused although
    the whole name is stored there, and the directory does not move on: neither this name nor
    those after it can be read with that buffer. *)
Theorem C86_exact_refuted : forall before n after b fuel, (List.length before < fuel)%nat ->
  Forall (fun n => good_text n /\ ~ In 0 n /\ (List.length (text enc8 n) + 2 <= List.length b)%nat) before ->
  good_text n -> ~ In 0 n -> List.length b = (List.length (text enc8 n) + 1)%nat ->
  wlisting fuel (map (text enc16) before ++ text enc16 n :: after) b = Ok (map (text enc8) before, text enc16 n :: after) /\
  exists b1, WDir_Read (text enc16 n :: after) b = Ok (text enc16 n :: after, b1, false) /\ cstr b1 = Ok (text enc8 n).
Proof.
  induction before as [|m names IH]; intros n after b fuel Hf F G Z L; (destruct fuel as [|g]; [cbn in Hf; lia|]); cbn [wlisting map app].
  - rewrite wdir_step by (exact G || lia). rewrite L, Nat.eqb_refl. cbn [negb bind]. split; [reflexivity|].
    eexists. split; [reflexivity|]. apply stored_cstr. exact Z.
  - destruct (Forall_inv F) as (Gm & Zm & Lm). rewrite (wdir_step m) by (exact Gm || lia).
    destruct (Nat.eqb_spec (List.length b) (List.length (text enc8 m) + 1)) as [X|_]; [lia|]. cbn [negb bind].
    rewrite stored_cstr by exact Zm. cbn [bind].
    assert (E : List.length (stored b (text enc8 m ++ [0])) = List.length b) by (apply stored_length; rewrite app_length; cbn [List.length]; lia).
    split.
    + destruct (IH n after (stored b (text enc8 m ++ [0])) g) as [I1 _]; [cbn [List.length] in Hf; lia| |exact G|exact Z|rewrite E; exact L|rewrite I1; reflexivity].
      apply Forall_inv_tail in F. eapply Forall_impl; [|exact F]. cbv beta. intros k (Gk & Zk & Lk). rewrite E. auto.
    + destruct (IH n after b (S (List.length names))) as [_ I2]; [lia| |exact G|exact Z|exact L|exact I2].
      apply Forall_inv_tail in F. exact F.
Qed.
Print Assumptions C86_exact_refuted.

(** And a name that does not fit can come out as another name, with success: of every name with
    a character of more than two bytes at the end, in a buffer two bytes longer than the rest. *)
Theorem C86_other_name_refuted : forall n c r b, good_text n -> n <> [] -> ~ In 0 n -> allowed c -> 2048 <= c -> List.length b = (List.length (text enc8 n) + 2)%nat ->
  exists b1, WDir_Read (text enc16 (n ++ [c]) :: r) b = Ok (r, b1, true) /\ cstr b1 = Ok (text enc8 n).
Proof.
  intros n c r b G Hn Z A Hc L. unfold WDir_Read.
  replace (text enc16 (n ++ [c]) ++ [0]) with (text enc16 ((n ++ [c]) ++ [0])) by (rewrite (text_app enc16 (n ++ [c])); reflexivity).
  destruct (convert_spec Wd2 (text enc16 ((n ++ [c]) ++ [0])) ((n ++ [c]) ++ [0]) (Some b) (List.length b) (le_n _)) as (o & lp & E & K).
  { cbn [scans]. apply scan16_text. apply Forall_app. split; [apply Forall_app; split; [apply G|apply Forall_cons; [exact A|apply Forall_nil]]|apply Forall_cons; [apply zero_allowed|apply Forall_nil]]. }
  assert (Eo : o = text enc8 n ++ [0]).
  { eapply keeps_fun; [exact K|]. rewrite <- app_assoc. eapply keeps_app.
    - apply (keeps_all enc8 (Some (List.length b)) enc8_len_pos n []); [apply G|intros _; apply G|cbn [fits List.length]; lia].
    - cbn [app]. apply k_drop.
      + intros (_ & _ & X). cbn [fits capof app] in X. assert (Lc : (3 <= List.length (enc8 c))%nat).
        { unfold enc8. destruct (N.ltb_spec c 128); [lia|]. destruct (N.ltb_spec c 2048); [lia|]. destruct (c <? 65536); cbn [List.length]; lia. }
        lia.
      + change [0] with (enc8 0). apply k_take; [|constructor]. split; [apply zero_allowed|]. split; [unfold combining; lia|cbn [fits capof app]; change (List.length (enc8 0)) with 1%nat; lia]. }
  conv E. subst o. cbn [bind]. rewrite app_length. cbn [List.length].
  destruct (Nat.eqb_spec (List.length b) (List.length (text enc8 n) + 1)) as [X|_]; [lia|]. eexists. split; [reflexivity|]. apply (stored_cstr b n Z).
Qed.
Print Assumptions C86_other_name_refuted.

Example C86_ex :
  wlisting 9 [[46]; [46; 46]; [0xE9; 0x61]] (repeat 7 5) = Ok ([[46]; [46; 46]; [0xC3; 0xA9; 0x61]], []) /\
  wlisting 9 [[46]; [46; 46]; [0xE9; 0x61]; [0x62]] (repeat 7 4) = Ok ([[46]; [46; 46]], [[0xE9; 0x61]; [0x62]]) /\
  wlisting 2 [[0x61; 0x20AC]; [0x61]] (repeat 7 3) = Fuel /\ WDir_Read [[0x61; 0x20AC]; [0x61]] (repeat 7 3) = Ok ([[0x61]], [0x61; 0; 7], true).
Proof. split; [vm_compute; reflexivity|]. split; [vm_compute; reflexivity|]. split; vm_compute; reflexivity. Qed.

(** ** C87 *)
Lemma offset_epoch : OFFSET = EPOCH.
Proof. reflexivity. Qed.
Definition EPOCH_val : EPOCH = 116444736000000000 := eq_refl.

(** From 1970 on the seconds are exact. *)
Theorem C87_seconds : forall ft, ft < W64 -> EPOCH <= ft -> Z.of_N (ConvertFILETIMEToUnixTime ft) = unix_seconds ft.
Proof.
  intros ft H L. unfold ConvertFILETIMEToUnixTime, unix_seconds. rewrite offset_epoch, sub64_le by exact L.
  rewrite N2Z.inj_div, N2Z.inj_sub by exact L. reflexivity.
Qed.
Print Assumptions C87_seconds.

(** Before 1970 the property is false: for every such time the result is a time tens of
    thousands of years ahead. *)
Theorem C87_before_1970_refuted : forall ft, ft < EPOCH ->
  (unix_seconds ft < 0)%Z /\ (1800000000000 < Z.of_N (ConvertFILETIMEToUnixTime ft))%Z.
Proof.
  intros ft L. split.
  - unfold unix_seconds. apply Z.div_lt_upper_bound; lia.
  - unfold ConvertFILETIMEToUnixTime, sub64. rewrite offset_epoch. destruct (N.leb_spec EPOCH ft) as [X|_]; [lia|].
    rewrite EPOCH_val, W64_val in *. assert (1800000000000 < (18446744073709551616 + ft - 116444736000000000) / 10000000); [|lia].
    apply N.lt_le_trans with 1833000000000; [reflexivity|]. apply N.div_le_lower_bound; lia.
Qed.
Print Assumptions C87_before_1970_refuted.

(** A time set in microseconds is stored exactly (while it can be stored), and Stat then shows
    the second it is in. *)
Theorem C87_set : forall us, us * 10 + EPOCH < W64 ->
  ConvertUnixMicrosecondTimeToFILETIME us = us * 10 + EPOCH /\
  ConvertFILETIMEToUnixTime (ConvertUnixMicrosecondTimeToFILETIME us) = us / 1000000.
Proof.
  intros us H. assert (E : ConvertUnixMicrosecondTimeToFILETIME us = us * 10 + EPOCH).
  { unfold ConvertUnixMicrosecondTimeToFILETIME. rewrite (w64_small (us * 10)) by lia. rewrite offset_epoch. apply w64_small. exact H. }
  split; [exact E|]. rewrite E. unfold ConvertFILETIMEToUnixTime. rewrite offset_epoch, sub64_le by lia.
  replace (us * 10 + EPOCH - EPOCH) with (us * 10) by lia. change 10000000 with (1000000 * 10). apply N.div_mul_cancel_r; discriminate.
Qed.
Print Assumptions C87_set.

(** File::Copy keeps the time of the last change up to the microsecond it is in, before 1970,
    too (rounded down), *)
Theorem C87_copy : forall ft, 10 <= ft -> ft < W64 -> copied_time ft <= ft /\ ft < copied_time ft + 10.
Proof.
  intros ft L H. unfold copied_time, ConvertUnixMicrosecondTimeToFILETIME. set (x := sub64 ft OFFSET).
  assert (Hx : x < W64 /\ (x + OFFSET = ft \/ x + OFFSET = W64 + ft)).
  { unfold x, sub64. rewrite offset_epoch, EPOCH_val, W64_val in *. destruct (N.leb_spec 116444736000000000 ft); lia. }
  destruct Hx as [Hx1 Hx2]. pose proof (N.div_mod x 10 ltac:(discriminate)) as D. pose proof (N.mod_lt x 10 ltac:(discriminate)) as M.
  clearbody x. revert D M. generalize (x / 10) (x mod 10). intros q m D M.
  rewrite (w64_small (q * 10)) by lia. destruct Hx2 as [Hx2|Hx2].
  - rewrite w64_small by lia. lia.
  - replace (q * 10 + OFFSET) with (ft - m + 1 * W64) by lia. unfold w64. rewrite N.mod_add by discriminate. rewrite N.mod_small by lia. lia.
Qed.
Print Assumptions C87_copy.

(** but not exactly, as the property says, if it is not a whole microsecond. *)
Theorem C87_copy_refuted : forall ft, EPOCH <= ft -> ft < W64 -> ft mod 10 <> 0 -> copied_time ft <> ft.
Proof.
  intros ft L H M E. unfold copied_time, ConvertUnixMicrosecondTimeToFILETIME in E. rewrite offset_epoch, sub64_le in E by exact L.
  pose proof (N.div_mod (ft - EPOCH) 10 ltac:(discriminate)) as D. pose proof (N.mod_lt (ft - EPOCH) 10 ltac:(discriminate)) as M1.
  revert E D M1. generalize ((ft - EPOCH) / 10) ((ft - EPOCH) mod 10). intros q m E D M1.
  rewrite (w64_small (q * 10)) in E by lia. rewrite w64_small in E by lia.
  apply M. replace ft with (q * 10 + 11644473600000000 * 10) by (rewrite EPOCH_val in *; lia).
  rewrite N.mod_add, N.mod_mul by discriminate. reflexivity.
Qed.
Print Assumptions C87_copy_refuted.

Example C87_ex : ConvertFILETIMEToUnixTime 133500000001234567 = 1705526400 /\ ConvertUnixMicrosecondTimeToFILETIME 1705526400123456 = 133500000001234560 /\
  copied_time 133500000001234567 = 133500000001234560 /\ ConvertFILETIMEToUnixTime 116444735999999999 = 1844674407370.
Proof. vm_compute. repeat split. Qed.

(** ** C89 *)
Lemma readlink_reads sl path off len b cps : slice (path_buffer sl path) off len = Ok (text enc16 cps) -> good_text cps ->
  (List.length (text enc8 cps) < List.length b)%nat ->
  exists b2, WReadlink sl path off len b = Ok (b2, true) /\ b2 = text enc8 cps ++ 0 :: skipn (S (List.length (text enc8 cps))) b.
Proof.
  intros E G L. unfold WReadlink. rewrite E. cbn [bind]. destruct (to8_all cps b G) as [lp E2]; [lia|]. conv E2. cbn [bind].
  destruct (Nat.ltb_spec (List.length (text enc8 cps)) (List.length b)) as [_|X]; [|lia]. unfold stored.
  destruct (skipn (List.length (text enc8 cps)) b) as [|x s] eqn:Es; [apply (f_equal (@List.length N)) in Es; rewrite skipn_length in Es; cbn [List.length] in Es; lia|].
  rewrite wr_in by (rewrite app_length; cbn [List.length]; lia). cbn [bind]. eexists. split; [reflexivity|].
  replace (upd (text enc8 cps ++ x :: s) (List.length (text enc8 cps)) 0) with (text enc8 cps ++ 0 :: s).
  - f_equal. f_equal. change (S (List.length (text enc8 cps))) with (1 + List.length (text enc8 cps))%nat. rewrite <- skipn_skipn, Es. reflexivity.
  - symmetry. rewrite upd_app_r by lia. rewrite Nat.sub_diag. reflexivity.
Qed.

(** The target alone in the buffer, at its start: read correctly if the result has room for it
    and for one more byte for each of its words. *)
Theorem C89_alone : forall sl cps b, good_text cps -> ~ In 0 cps -> (2 * List.length (text enc16 cps) <= N.to_nat 8182)%nat ->
  (List.length (text enc8 cps) + List.length (text enc16 cps) < List.length b)%nat ->
  exists b2, WReadlink sl (text enc16 cps) 0 (2 * List.length (text enc16 cps)) b = Ok (b2, true) /\ cstr b2 = Ok (text enc8 cps).
Proof.
  intros sl cps b G Z L1 L2. set (n := List.length (text enc16 cps)) in *.
  destruct (readlink_reads sl (text enc16 cps) 0 (2 * n) b (cps ++ repeat 0 n)) as (b2 & E & Eb).
  - assert (C : (N.to_nat 8182 <= N.to_nat (if sl then 8182 else 8184))%nat) by (destruct sl; lia).
    unfold path_buffer. revert C. generalize (N.to_nat (if sl then 8182 else 8184)). intros m C. fold n.
    rewrite firstn_all2 by (rewrite app_length, repeat_length; fold n; lia).
    rewrite slice_in by (rewrite app_length, repeat_length; fold n; lia). cbn [skipn]. f_equal.
    rewrite text_app, zeros16. replace (2 * n)%nat with (List.length (text enc16 cps) + n)%nat by (fold n; lia). rewrite firstn_app_2. f_equal.
    replace (m - n)%nat with (n + (m - n - n))%nat by lia. rewrite repeat_app, firstn_app, repeat_length, Nat.sub_diag. cbn [firstn]. rewrite app_nil_r.
    apply firstn_all2. rewrite repeat_length. lia.
  - apply good_zeros. exact G.
  - rewrite text_app, zeros8, app_length, repeat_length. exact L2.
  - exists b2. split; [exact E|]. rewrite Eb, text_app, zeros8, <- app_assoc.
    destruct n as [|k]; cbn [repeat app]; apply cstr_app; apply text8_nz; exact Z.
Qed.
Print Assumptions C89_alone.

Lemma buffer_long sl path n : (n <= N.to_nat 8182)%nat -> (List.length path <= n)%nat -> firstn n (path_buffer sl path) = path ++ repeat 0 (n - List.length path).
Proof.
  intros L1 L2. assert (C : (N.to_nat 8182 <= N.to_nat (if sl then 8182 else 8184))%nat) by (destruct sl; lia).
  unfold path_buffer. revert C. generalize (N.to_nat (if sl then 8182 else 8184)). intros m C.
  rewrite firstn_firstn, Nat.min_l by lia. rewrite firstn_app. rewrite firstn_all2 by lia. f_equal.
  replace (m - List.length path)%nat with ((n - List.length path) + (m - n))%nat by lia. rewrite repeat_app, firstn_app, repeat_length, Nat.sub_diag. cbn [firstn].
  rewrite app_nil_r. apply firstn_all2. rewrite repeat_length. lia.
Qed.

Lemma buffer_length sl path : List.length (path_buffer sl path) = N.to_nat (if sl then 8182 else 8184).
Proof.
  unfold path_buffer. generalize (N.to_nat (if sl then 8182 else 8184)). intro m. rewrite firstn_length, app_length, repeat_length. lia.
Qed.

(** The property as stated is false.  Behind the target the name to be shown is stored: then the
    result is the target followed by (the beginning of) that name. *)
Theorem C89_joined_refuted : forall sl cps more b, good_text cps -> ~ In 0 cps -> Forall allowed more -> ~ In 0 more -> more <> [] -> cps <> [] ->
  (List.length (text enc16 more) <= List.length (text enc16 cps))%nat -> (2 * List.length (text enc16 cps) <= N.to_nat 8182)%nat ->
  (List.length (text enc8 (cps ++ more)) + List.length (text enc16 cps) < List.length b)%nat ->
  exists b2, WReadlink sl (text enc16 cps ++ text enc16 more) 0 (2 * List.length (text enc16 cps)) b = Ok (b2, true) /\
    cstr b2 = Ok (text enc8 (cps ++ more)) /\ text enc8 (cps ++ more) <> text enc8 cps.
Proof.
  intros sl cps more b G Z Am Zm Hm Hc L0 L1 L2. set (n := List.length (text enc16 cps)) in *. set (k := List.length (text enc16 more)) in *.
  assert (Gm : good_text (cps ++ more)).
  { split; [apply Forall_app; split; [apply G|exact Am]|]. destruct cps as [|c r]; [congruence|apply G]. }
  destruct (readlink_reads sl (text enc16 cps ++ text enc16 more) 0 (2 * n) b ((cps ++ more) ++ repeat 0 (n - k))) as (b2 & E & Eb).
  - rewrite slice_in by (rewrite buffer_length; destruct sl; lia). cbn [skipn]. f_equal.
    rewrite buffer_long by (rewrite ?app_length; fold n k; lia). rewrite !text_app, zeros16. f_equal. f_equal. rewrite app_length. fold n k. lia.
  - apply good_zeros. exact Gm.
  - rewrite text_app, zeros8, app_length, repeat_length. lia.
  - exists b2. split; [exact E|]. split.
    + rewrite Eb, text_app, zeros8, <- app_assoc. destruct (n - k)%nat; cbn [repeat app]; apply cstr_app; apply text8_nz; intro X; apply in_app_or in X; tauto.
    + rewrite text_app. intro X. apply (f_equal (@List.length N)) in X. rewrite app_length in X. destruct more as [|c r]; [congruence|].
      change (text enc8 (c :: r)) with (enc8 c ++ text enc8 r) in X. rewrite app_length in X. pose proof (enc8_len_pos c). lia.
Qed.
Print Assumptions C89_joined_refuted.

(** A relative link, whose target and name to be shown are the same text, the latter stored
    first: the result is empty, with success. *)
Theorem C89_empty_refuted : forall sl cps b, good_text cps -> cps <> [] -> (4 * List.length (text enc16 cps) <= N.to_nat 8182)%nat ->
  (2 * List.length (text enc16 cps) < List.length b)%nat ->
  exists b2, WReadlink sl (text enc16 cps ++ text enc16 cps) (2 * List.length (text enc16 cps)) (2 * List.length (text enc16 cps)) b = Ok (b2, true) /\
    cstr b2 = Ok [].
Proof.
  intros sl cps b G Hc L1 L2. set (n := List.length (text enc16 cps)) in *.
  assert (Pn : (0 < n)%nat) by (destruct cps as [|c r]; [congruence|]; unfold n; change (text enc16 (c :: r)) with (enc16 c ++ text enc16 r);
    rewrite app_length; unfold enc16 at 1; destruct (c <? 65536); cbn [List.length]; lia).
  destruct (readlink_reads sl (text enc16 cps ++ text enc16 cps) (2 * n) (2 * n) b (repeat 0 (2 * n))) as (b2 & E & Eb).
  - rewrite slice_in by (rewrite buffer_length; destruct sl; lia). f_equal. rewrite zeros16.
    rewrite firstn_skipn_comm. rewrite buffer_long by (rewrite ?app_length; fold n; lia).
    rewrite app_length. fold n. replace (2 * n)%nat with (List.length (text enc16 cps ++ text enc16 cps)) at 1 by (rewrite app_length; fold n; lia).
    rewrite skipn_app, skipn_all, Nat.sub_diag. cbn [skipn app]. f_equal. lia.
  - apply (good_zeros [] (2 * n)). split; [constructor|exact I].
  - rewrite zeros8, repeat_length. exact L2.
  - exists b2. split; [exact E|]. rewrite Eb, zeros8. destruct (2 * n)%nat as [|j] eqn:Ej; [lia|]. reflexivity.
Qed.
Print Assumptions C89_empty_refuted.

(** And if they are longer, memory outside the array is read. *)
Theorem C89_outside_refuted : forall sl path t b, (List.length t < N.to_nat 4092)%nat -> (N.to_nat 4092 < 2 * List.length t)%nat -> path = t ++ t ->
  (List.length path <= N.to_nat 8182)%nat /\ WReadlink sl path (2 * List.length t) (2 * List.length t) b = UB.
Proof.
  intros sl path t b L1 L2 ->. split; [rewrite app_length; lia|]. unfold WReadlink, slice. rewrite buffer_length.
  destruct (Nat.leb_spec (2 * List.length t + 2 * List.length t) (N.to_nat (if sl then 8182 else 8184))) as [X|_]; [|reflexivity].
  destruct sl; lia.
Qed.
Print Assumptions C89_outside_refuted.

Definition chars (s : string) : bytes := List.map (fun a => N.of_nat (nat_of_ascii a)) (list_ascii_of_string s).
Example C89_ex :
  (exists b, WReadlink true (chars "..\a") 0 8 (repeat 7 20) = Ok (b, true) /\ cstr b = Ok (chars "..\a")) /\
  (exists b, WReadlink true (chars "..\a..\a") 8 8 (repeat 7 20) = Ok (b, true) /\ cstr b = Ok []) /\
  (exists b, WReadlink true (chars "C:\a\??\C:\a") 8 16 (repeat 7 20) = Ok (b, true) /\ cstr b = Ok (chars "C:\a")) /\
  (exists b, WReadlink true (chars "\??\C:\aC:\a") 0 16 (repeat 7 20) = Ok (b, true) /\ cstr b = Ok (chars "\??\C:\aC:\a")) /\
  WReadlink true (chars "abc") 0 6 (repeat 7 6) = Ok (chars "abc" ++ [0; 0; 0], false).
Proof.
  split; [eexists; split; vm_compute; reflexivity|]. split; [eexists; split; vm_compute; reflexivity|].
  split; [eexists; split; vm_compute; reflexivity|]. split; [eexists; split; vm_compute; reflexivity|]. vm_compute. reflexivity.
Qed.

(** ** C90 *)
Lemma land_zero m k : N.land m k = 0 <-> forall i, N.testbit k i = true -> N.testbit m i = false.
Proof.
  split.
  - intros E i Hi. pose proof (N.land_spec m k i) as X. rewrite E, N.bits_0, Hi, andb_true_r in X. symmetry. exact X.
  - intro H. apply N.bits_inj_0. intro i. rewrite N.land_spec. destruct (N.testbit k i) eqn:E; [rewrite (H i E); reflexivity|apply andb_false_r].
Qed.

Lemma bits_below k i n : k < 2 ^ n -> N.testbit k i = true -> i < n.
Proof.
  intros H E. destruct (N.ltb_spec i n) as [X|X]; [exact X|]. exfalso.
  replace k with (k mod 2 ^ n) in E by (apply N.mod_small; exact H). rewrite N.mod_pow2_bits_high in E by exact X. discriminate.
Qed.

Lemma no_bits_333 m : N.land m 219 = 0 <-> may_write m = false /\ (N.testbit m 6 || N.testbit m 3 || N.testbit m 0)%bool = false.
Proof.
  unfold may_write. rewrite land_zero. split.
  - intro H. rewrite !(H 7), !(H 4), !(H 1), !(H 6), !(H 3), !(H 0) by reflexivity. split; reflexivity.
  - intros [H1 H2] i Hi. pose proof (bits_below 219 i 8 eq_refl Hi) as L.
    apply orb_false_iff in H1 as [H1 H1c]. apply orb_false_iff in H1 as [H1a H1b]. apply orb_false_iff in H2 as [H2 H2c]. apply orb_false_iff in H2 as [H2a H2b].
    assert (i = 0 \/ i = 1 \/ i = 2 \/ i = 3 \/ i = 4 \/ i = 5 \/ i = 6 \/ i = 7) as C by lia.
    destruct C as [->|[->|[->|[->|[->|[->|[->| ->]]]]]]]; assumption || discriminate Hi.
Qed.

Lemma no_bits_444 m : N.land m 292 = 0 <-> may_read m = false.
Proof.
  unfold may_read. rewrite land_zero. split.
  - intro H. rewrite !(H 8), !(H 5), !(H 2) by reflexivity. reflexivity.
  - intros H1 i Hi. pose proof (bits_below 292 i 9 eq_refl Hi) as L.
    apply orb_false_iff in H1 as [H1 H1c]. apply orb_false_iff in H1 as [H1a H1b].
    assert (i = 0 \/ i = 1 \/ i = 2 \/ i = 3 \/ i = 4 \/ i = 5 \/ i = 6 \/ i = 7 \/ i = 8) as C by lia.
    destruct C as [->|[->|[->|[->|[->|[->|[->|[->| ->]]]]]]]]; assumption || discriminate Hi.
Qed.

Definition executes (mode : N) : bool := N.testbit mode 6 || N.testbit mode 3 || N.testbit mode 0.

(** What Chmod does to the attributes, bit by bit. *)
Lemma chmod_bits attrs mode r : attrs < 2 ^ 32 -> Chmod attrs mode = Some r ->
  N.testbit attrs DIRECTORY = false /\ N.testbit r READONLY = negb (may_write mode) && negb (executes mode) && may_read mode /\
  (forall i, i <> READONLY -> i <> NORMAL -> N.testbit r i = N.testbit attrs i) /\
  (N.testbit r NORMAL = true <-> forall i, i <> NORMAL -> N.testbit r i = false).
Proof.
  intros Ha. unfold Chmod. destruct (N.eqb_spec (N.land attrs 16) 0) as [E|E]; [|discriminate]. cbn [negb].
  set (a2 := N.land (N.land attrs _) _).
  assert (B2 : forall i, N.testbit a2 i = N.testbit attrs i && negb (i =? 0) && negb (i =? 7)).
  { intro i. unfold a2. rewrite !N.land_spec. destruct (N.ltb_spec i 32) as [L|L].
    - assert (X : forall j, j < 32 -> N.testbit (0xFFFFFFFF - 1) j = negb (j =? 0) /\ N.testbit (0xFFFFFFFF - 128) j = negb (j =? 7)).
      { clear. intros j L. rewrite <- (N2Nat.id j) in *. assert (L2 : (N.to_nat j < 32)%nat) by lia. clear L. revert L2. generalize (N.to_nat j). clear.
        intros k L. do 32 (destruct k as [|k]; [split; reflexivity|]). lia. }
      destruct (X i L) as [-> ->]. reflexivity.
    - replace attrs with (attrs mod 2 ^ 32) by (apply N.mod_small; exact Ha). rewrite N.mod_pow2_bits_high by exact L. reflexivity. }
  assert (C : ((N.land mode 219 =? 0) && negb (N.land mode 292 =? 0))%bool = negb (may_write mode) && negb (executes mode) && may_read mode).
  { destruct (N.eqb_spec (N.land mode 219) 0) as [X|X]; destruct (N.eqb_spec (N.land mode 292) 0) as [Y|Y]; cbn [andb negb].
    - apply no_bits_444 in Y. rewrite Y, andb_false_r. reflexivity.
    - apply no_bits_333 in X as [X1 X2]. unfold executes. rewrite X1, X2. cbn [negb andb]. destruct (may_read mode) eqn:R; [reflexivity|]. exfalso. apply Y. apply no_bits_444. exact R.
    - apply no_bits_444 in Y. rewrite Y, andb_false_r. reflexivity.
    - destruct (may_write mode) eqn:W; [reflexivity|]. destruct (executes mode) eqn:Q; [reflexivity|]. exfalso. apply X. apply no_bits_333. split; [exact W|exact Q]. }
  rewrite C. set (ro := (negb (may_write mode) && negb (executes mode) && may_read mode)%bool). set (a3 := if ro then N.lor a2 1 else a2).
  assert (B3 : forall i, N.testbit a3 i = if i =? 0 then ro else if i =? 7 then false else N.testbit attrs i).
  { intro i. unfold a3. destruct (N.eqb_spec i 0) as [->|N0].
    - destruct ro; rewrite ?N.lor_spec, B2; cbn [N.eqb negb]; rewrite ?andb_false_r; reflexivity.
    - assert (X : N.testbit 1 i = false) by (destruct (N.testbit 1 i) eqn:T; [pose proof (bits_below 1 i 1 eq_refl T); lia|reflexivity]).
      assert (Y : N.testbit (if ro then N.lor a2 1 else a2) i = N.testbit a2 i) by (destruct ro; [rewrite N.lor_spec, X, orb_false_r; reflexivity|reflexivity]).
      rewrite Y, B2. destruct (N.eqb_spec i 0); [congruence|]. destruct (i =? 7); cbn [negb]; rewrite ?andb_true_r, ?andb_false_r; reflexivity. }
  intro R. split; [apply (proj1 (land_zero attrs 16) E 4); reflexivity|].
  assert (BN : forall i, i <> 7 -> N.testbit r i = N.testbit a3 i).
  { intros i Hi. destruct (N.eqb_spec a3 0) as [Z|Z]; injection R as <-; [|reflexivity]. rewrite N.lor_spec.
    destruct (N.testbit 128 i) eqn:T; [|apply orb_false_r]. exfalso. pose proof (bits_below 128 i 8 eq_refl T).
    assert (i = 0 \/ i = 1 \/ i = 2 \/ i = 3 \/ i = 4 \/ i = 5 \/ i = 6) as D by lia.
    destruct D as [->|[->|[->|[->|[->|[->| ->]]]]]]; discriminate T. }
  split; [unfold READONLY; rewrite BN by discriminate; rewrite B3; reflexivity|]. split.
  - unfold READONLY, NORMAL. intros i I0 I7. rewrite BN, B3 by exact I7. destruct (N.eqb_spec i 0); [congruence|]. destruct (N.eqb_spec i 7); [congruence|]. reflexivity.
  - unfold NORMAL. split.
    + intros T i I7. rewrite BN by exact I7. destruct (N.eqb_spec a3 0) as [Z|Z]; injection R as <-; [rewrite Z; apply N.bits_0|]. rewrite B3 in T. discriminate T.
    + intro H. destruct (N.eqb_spec a3 0) as [Z|Z]; injection R as <-; [rewrite Z; reflexivity|]. exfalso. apply Z. apply N.bits_inj_0. intro i.
      destruct (N.eqb_spec i 7) as [->|I7]; [rewrite B3; reflexivity|apply H; exact I7].
Qed.

(** Chmod of a file: with a permission to write the file becomes writable, with permissions to
    read only it becomes read-only; the other attributes stay, and NORMAL is set if and only if
    it is the only one.  A directory is refused. *)
Theorem C90_chmod : forall attrs mode, attrs < 2 ^ 32 -> N.testbit attrs DIRECTORY = false ->
  exists r, Chmod attrs mode = Some r /\
    (may_write mode = true -> N.testbit r READONLY = false) /\
    (may_write mode = false -> executes mode = false -> may_read mode = true -> N.testbit r READONLY = true) /\
    (forall i, i <> READONLY -> i <> NORMAL -> N.testbit r i = N.testbit attrs i) /\
    (N.testbit r NORMAL = true <-> forall i, i <> NORMAL -> N.testbit r i = false).
Proof.
  intros attrs mode Ha Hd. assert (E : exists r, Chmod attrs mode = Some r).
  { unfold Chmod. replace (N.land attrs 16 =? 0) with true; [eexists; reflexivity|]. symmetry. apply N.eqb_eq. apply land_zero. intros i Hi.
    pose proof (bits_below 16 i 5 eq_refl Hi). assert (i = 0 \/ i = 1 \/ i = 2 \/ i = 3 \/ i = 4) as C by lia.
    destruct C as [->|[->|[->|[->| ->]]]]; try discriminate Hi. exact Hd. }
  destruct E as [r E]. exists r. split; [exact E|]. destruct (chmod_bits _ _ _ Ha E) as (_ & H1 & H2 & H3). rewrite H1.
  split; [intros ->; reflexivity|]. split; [intros -> -> ->; reflexivity|]. split; assumption.
Qed.
Print Assumptions C90_chmod.

Theorem C90_directory : forall attrs mode, N.testbit attrs DIRECTORY = true -> Chmod attrs mode = None.
Proof.
  intros attrs mode H. unfold Chmod. destruct (N.eqb_spec (N.land attrs 16) 0) as [E|_]; [|reflexivity].
  pose proof (proj1 (land_zero attrs 16) E 4 eq_refl) as X. unfold DIRECTORY in H. rewrite X in H. discriminate H.
Qed.
Print Assumptions C90_directory.

(** Stat shows the permission to write exactly for files that are not read-only. *)
Theorem C90_stat : forall attrs, may_write (stat_mode attrs) = negb (N.testbit attrs READONLY) /\ may_read (stat_mode attrs) = true.
Proof.
  intro attrs. unfold stat_mode. destruct (N.eqb_spec (N.land attrs 1) 0) as [E|E]; cbn [negb].
  - unfold READONLY. rewrite (proj1 (land_zero attrs 1) E 0 eq_refl). split; reflexivity.
  - destruct (N.testbit attrs READONLY) eqn:T; [split; reflexivity|]. exfalso. apply E. apply land_zero. intros i Hi.
    pose proof (bits_below 1 i 1 eq_refl Hi). replace i with READONLY by (unfold READONLY; lia). exact T.
Qed.
Print Assumptions C90_stat.

(** The property as stated is false: without any permission to write, but with one to execute or
    with none at all, the file becomes (or stays) writable. *)
Theorem C90_refuted : forall attrs mode, attrs < 2 ^ 32 -> N.testbit attrs DIRECTORY = false -> may_write mode = false ->
  executes mode = true \/ may_read mode = false ->
  exists r, Chmod attrs mode = Some r /\ N.testbit r READONLY = false /\ may_write (stat_mode r) = true.
Proof.
  intros attrs mode Ha Hd W X. destruct (C90_chmod attrs mode Ha Hd) as (r & E & _). exists r. split; [exact E|].
  destruct (chmod_bits _ _ _ Ha E) as (_ & H1 & _ & _).
  assert (R : N.testbit r READONLY = false) by (rewrite H1; destruct X as [-> | ->]; cbn [negb]; rewrite ?andb_false_r; reflexivity).
  split; [exact R|]. rewrite (proj1 (C90_stat r)), R. reflexivity.
Qed.
Print Assumptions C90_refuted.

(** 0644, 0444, 0555 and 0 on an archived read-only file; a plain file; a directory. *)
Example C90_ex : Chmod 33 420 = Some 32 /\ Chmod 33 292 = Some 33 /\ Chmod 33 365 = Some 32 /\ Chmod 33 0 = Some 32 /\ Chmod 128 292 = Some 1 /\
  Chmod 1 438 = Some 128 /\ Chmod 16 292 = None /\ stat_mode 33 = 292 /\ stat_mode 32 = 438.
Proof. vm_compute. repeat split. Qed.
