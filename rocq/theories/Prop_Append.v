(** C124, C125: files opened with O_APPEND. *)
From Verif Require Import Base S_File S_WinFile M_File M_WinFile P_File S_Append M_Append P_Append.
Open Scope N_scope.
Local Arguments N.pow : simpl never.
Local Arguments W64 : simpl never.

(** ** C124: writes only ever add to the end *)

(** POSIX: without interrupted calls, whatever the object does (seeking included), and whatever
    others append, the file holds what it held, followed by exactly the bytes reported as written
    and those of the others, in the order of the calls. *)
Theorem C124_posix : forall er ew fuel l r c, (forall k, ew k <> Intr) ->
  let '(f, d) := aopen r c in
  match arun er ew fuel f d l with
  | UB => False
  | Fuel => True
  | Ok (_, d', s) => length s = length l /\ data d' = c ++ all_added l s
  end.
Proof.
  intros er ew fuel l r c He. cbn [aopen]. pose proof (arun_no_UB er ew He fuel l (File true r true 0 (N.of_nat (length c))) (Disk c 0 0)) as U.
  destruct (arun er ew fuel _ _ l) as [[[f' d'] s]| |] eqn:E; [|congruence|exact I].
  now apply (arun_exact er ew He) in E.
Qed.
Print Assumptions C124_posix.

(** Even with interrupted calls nothing that was in the file is lost. *)
Theorem C124_kept : forall er ew fuel l f d f' d' s, arun er ew fuel f d l = Ok (f', d', s) -> grows (data d) (data d').
Proof. intros. eapply arun_grows; eauto. Qed.
Print Assumptions C124_kept.

(** Windows: the same if the object does not seek and nobody else appends. *)
Theorem C124_windows : forall er ew l r c f d f' d' s, wopen r c = (f, d) -> Forall plain l ->
  N.of_nat (length c + total l) < 2 ^ 62 -> wrun er ew f d l = (f', d', s) ->
  length s = length l /\ data d' = c ++ all_added l s.
Proof.
  intros er ew l r c f d f' d' s O P Z H. pose proof (wopen_end r c) as [A Dc]. rewrite O in A, Dc. cbn [fst snd] in A, Dc. rewrite <- Dc in Z.
  destruct (wrun_plain er ew l _ _ f' d' s A P Z H) as (L & D & _). rewrite Dc in D. auto.
Qed.
Print Assumptions C124_windows.

(** After a Seek the write goes over what was there. *)
Theorem C124_seek_refuted : forall er ew r c x f d, wopen r c = (f, d) ->
  ew O = Part (length x) -> x <> [] -> (length x <= length c)%nat -> N.of_nat (length c) < 2 ^ 32 ->
  exists f' d', wrun er ew f d [Mine (FSeek FromStart 0); Mine (FWrite x)] = (f', d', [ADone true; AWrote true (N.of_nat (length x))]) /\
    data d' = x ++ skipn (length x) c.
Proof.
  intros er ew r c x f d O E Hx Hl Hs. rewrite wopen_eq in O. inversion O; subst; clear O. cbn [wrun wstep wexec].
  unfold Seek. cbn [opened negb max]. replace (0 <=? N.of_nat (length c)) with true by (symmetry; apply N.leb_le; lia).
  unfold WWrite. cbn [opened writes negb orb reads].
  destruct (Nat.eqb_spec (length x) 0) as [Z|Z]; [destruct x; [congruence|discriminate]|].
  unfold sys_write. cbn [used]. rewrite E. unfold dword. rewrite N.mod_small by (unfold DWORD; lia). rewrite Nat2N.id, !firstn_all.
  cbn [off data N.to_nat firstn app Nat.add Nat.sub repeat]. eexists _, _. split; [reflexivity|]. reflexivity.
Qed.
Print Assumptions C124_seek_refuted.

(** Bytes that somebody else has appended in the meantime are overwritten. *)
Theorem C124_others_refuted : forall er ew r c x y f d, wopen r c = (f, d) ->
  ew O = Part (length x) -> x <> [] -> length y = length x -> N.of_nat (length x) < 2 ^ 32 ->
  exists f' d', wrun er ew f d [Theirs y; Mine (FWrite x)] = (f', d', [ADone true; AWrote true (N.of_nat (length x))]) /\
    data d' = c ++ x.
Proof.
  intros er ew r c x y f d O E Hx Hl Hs. rewrite wopen_eq in O. inversion O; subst; clear O. cbn [wrun wstep wexec]. unfold theirs. cbn [data off used].
  unfold WWrite. cbn [opened writes negb orb reads].
  destruct (Nat.eqb_spec (length x) 0) as [Z|Z]; [destruct x; [congruence|discriminate]|].
  unfold sys_write. cbn [used]. rewrite E. unfold dword. rewrite N.mod_small by (unfold DWORD; lia). rewrite Nat2N.id, !firstn_all.
  cbn [off data]. eexists _, _. split; [reflexivity|]. cbn [data]. rewrite Nat2N.id, app_length.
  rewrite firstn_app, firstn_all, Nat.sub_diag. cbn [firstn]. rewrite app_nil_r.
  replace (length c - (length c + length y))%nat with O by lia. cbn [repeat app].
  rewrite skipn_all2 by (rewrite app_length; lia). now rewrite app_nil_r.
Qed.
Print Assumptions C124_others_refuted.

(** ** C125: the position after a write is the end of the file *)

(** Windows: while the object only reads and writes, and is alone, GetCurrPos and GetMaxPos are
    the size of the file, where the next read or write takes place. *)
Theorem C125_windows : forall er ew l r c f d f' d' s, wopen r c = (f, d) -> Forall plain l ->
  N.of_nat (length c + total l) < 2 ^ 62 -> wrun er ew f d l = (f', d', s) ->
  curr f' = N.of_nat (length (data d')) /\ max f' = N.of_nat (length (data d')) /\ off d' = N.of_nat (length (data d')).
Proof.
  intros er ew l r c f d f' d' s O P Z H. pose proof (wopen_end r c) as [A Dc]. rewrite O in A, Dc. cbn [fst snd] in A, Dc. rewrite <- Dc in Z.
  destruct (wrun_plain er ew l _ _ f' d' s A P Z H) as (_ & _ & (_ & _ & B1 & B2 & B3)). repeat split; congruence.
Qed.
Print Assumptions C125_windows.

(** POSIX: a successful write leaves GetCurrPos and GetMaxPos at the end if they were there. *)
Theorem C125_posix : forall ew fuel f d x f' d' n, (forall k, ew k <> Intr) -> at_end f d ->
  N.of_nat (length (data d) + length x) < 2 ^ 62 ->
  AWrite ew fuel f d x = Ok (f', d', true, n) ->
  n = N.of_nat (length x) /\ data d' = data d ++ x /\ at_end f' d'.
Proof.
  intros ew fuel f d x f' d' n He A Z H. pose proof A as (A1 & A2 & A3 & A4 & A5). unfold AWrite in H. rewrite A1, A2 in H. cbn [negb orb] in H.
  destruct (Nat.eqb_spec (length x) 0) as [E|E].
  { destruct x; [|discriminate]. inversion H; subst. rewrite app_nil_r. auto. }
  destruct (append_loop ew fuel d x 0 (length x)) as [[[d1 ok] m]| |] eqn:EL; cbn [bind] in H; [|discriminate|discriminate].
  destruct ok; [|discriminate]. apply (append_exact ew He) in EL; [|reflexivity]. destruct EL as (q & H1 & H2 & H3 & H4 & H5).
  specialize (H4 eq_refl). specialize (H5 eq_refl). subst q. cbn [Nat.add skipn] in H2, H3. rewrite firstn_all in H3. subst m.
  rewrite w64_small in H by (rewrite W64_val; rewrite P62_val in Z; lia).
  inversion H; subst; clear H. split; [reflexivity|]. split; [exact H3|]. unfold at_end. cbn [opened writes curr max].
  rewrite H5, H3, app_length. repeat split; auto; try lia. rewrite A4. destruct (N.ltb_spec (curr f) (curr f + N.of_nat (length x))); lia.
Qed.
Print Assumptions C125_posix.

(** Opening a file that is not empty puts the position at its start; after the first write
    GetCurrPos is the number of bytes written, though they are at the end, ... *)
Theorem C125_position_refuted : forall ew fuel r c x, c <> [] -> x <> [] -> (forall k, ew k = Part (length x)) -> (0 < fuel)%nat ->
  N.of_nat (length c + length x) < 2 ^ 62 ->
  let '(f, d) := aopen r c in
  exists f' d', AWrite ew fuel f d x = Ok (f', d', true, N.of_nat (length x)) /\ data d' = c ++ x /\
    curr f' = N.of_nat (length x) /\ max f' = N.max (N.of_nat (length c)) (N.of_nat (length x)) /\
    off d' = N.of_nat (length c + length x) /\ curr f' <> off d' /\ max f' <> N.of_nat (length (data d')).
Proof.
  intros ew fuel r c x Hc Hx E Hf Z. cbn [aopen]. unfold AWrite. cbn [opened writes negb orb].
  assert (Lx : (0 < length x)%nat) by (destruct x; [congruence|cbn; lia]).
  assert (Lc : (0 < length c)%nat) by (destruct c; [congruence|cbn; lia]).
  destruct (Nat.eqb_spec (length x) 0); [lia|]. destruct fuel as [|g]; [lia|]. cbn [append_loop]. rewrite sys_append_eq. cbn [used]. rewrite E.
  cbn [skipn]. rewrite !firstn_all, Nat.sub_diag. cbn [Nat.eqb bind curr max data]. rewrite w64_small by (rewrite W64_val; rewrite P62_val in Z; lia).
  eexists _, _. split; [reflexivity|]. cbn [curr max off data]. rewrite app_length.
  cbn [Nat.add]. destruct (N.ltb_spec (N.of_nat (length c)) (0 + N.of_nat (length x))); repeat split; lia.
Qed.
Print Assumptions C125_position_refuted.

(** ... Read then gives nothing although GetCurrPos is below GetMaxPos ... *)
Theorem C125_read_refuted : forall er ew fuel c x n, c <> [] -> x <> [] -> (forall k, ew k = Part (length x)) -> (forall k, er k = Part k) -> (0 < fuel)%nat ->
  N.of_nat (length c + length x) < 2 ^ 62 -> 0 < n -> n < W64 ->
  let '(f, d) := aopen true c in
  exists f' d', arun er ew fuel f d [Mine (FWrite x); Mine (FRead n)] = Ok (f', d', [AWrote true (N.of_nat (length x)); ABytes true []]) /\
    curr f' = N.of_nat (length x) /\ curr f' < N.of_nat (length (data d')).
Proof.
  intros er ew fuel c x n Hc Hx E Er Hf Z Hn Hw. cbn [aopen]. 
  pose proof (C125_position_refuted ew fuel true c x Hc Hx E Hf Z) as P. cbn [aopen] in P.
  destruct P as (f1 & d1 & P1 & P2 & P3 & P4 & P5 & _).
  cbn [arun astep]. rewrite P1. cbn [bind fexec].
  assert (F : opened f1 = true /\ reads f1 = true).
  { unfold AWrite in P1. cbn [opened writes negb orb] in P1. destruct (_ =? 0)%nat; [now inversion P1|].
    destruct (append_loop _ _ _ _ _ _) as [[[d2 ok] m]| |]; cbn [bind] in P1; try discriminate. destruct ok; [|discriminate].
    inversion P1; subst. split; reflexivity. }
  destruct F as [F1 F2]. unfold Read. rewrite F1, F2. cbn [negb orb].
  assert (Lc : (0 < length c)%nat) by (destruct c; [congruence|cbn; lia]).
  assert (L1 : length (data d1) = (length c + length x)%nat) by (rewrite P2, app_length; reflexivity).
  match goal with |- context [if (?q =? 0) then _ else _] => set (n1 := q) end.
  assert (N1 : n1 <> 0).
  { unfold n1, UpdateMaxPos. rewrite F1. rewrite (sub64_le (max f1)) by lia.
    destruct (N.ltb_spec (max f1 - curr f1) n); cbn [fst curr max]; [|lia].
    rewrite sub64_le by (rewrite L1; lia). rewrite L1. destruct (N.ltb_spec (N.of_nat (length c + length x) - curr f1) n); lia. }
  destruct (N.eqb_spec n1 0); [contradiction|]. destruct fuel as [|g]; [lia|]. cbn [read_loop]. unfold sys_read. rewrite Er.
  rewrite (skipn_all2 (data d1)) by (rewrite L1, P5; lia). rewrite firstn_nil. cbn [bind length].
  eexists _, _. split; [reflexivity|]. cbn [curr data].
  assert (C1 : curr (if sub64 (max f1) (curr f1) <? n then fst (UpdateMaxPos f1 d1) else f1) = curr f1)
    by (unfold UpdateMaxPos; rewrite F1; destruct (_ <? _); reflexivity).
  rewrite C1, N.add_0_r, w64_small by (rewrite W64_val, P3; rewrite P62_val in Z; lia). split; [exact P3|]. rewrite L1, P3. lia.
Qed.
Print Assumptions C125_read_refuted.

(** ... and a seek to the end of the file goes somewhere else. *)
Theorem C125_seek_refuted : forall er ew fuel r c x, c <> [] -> x <> [] -> (forall k, ew k = Part (length x)) -> (0 < fuel)%nat ->
  N.of_nat (length c + length x) < 2 ^ 62 ->
  let '(f, d) := aopen r c in
  exists f' d', arun er ew fuel f d [Mine (FWrite x); Mine (FSeek FromEnd 0)] = Ok (f', d', [AWrote true (N.of_nat (length x)); ADone true]) /\
    off d' = N.max (N.of_nat (length c)) (N.of_nat (length x)) /\ off d' < N.of_nat (length (data d')).
Proof.
  intros er ew fuel r c x Hc Hx E Hf Z. cbn [aopen].
  pose proof (C125_position_refuted ew fuel r c x Hc Hx E Hf Z) as P. cbn [aopen] in P.
  destruct P as (f1 & d1 & P1 & P2 & P3 & P4 & P5 & _).
  assert (F : opened f1 = true).
  { unfold AWrite in P1. cbn [opened writes negb orb] in P1. destruct (_ =? 0)%nat; [now inversion P1|].
    destruct (append_loop _ _ _ _ _ _) as [[[d2 ok] m]| |]; cbn [bind] in P1; try discriminate. destruct ok; [|discriminate].
    inversion P1; subst. reflexivity. }
  cbn [arun astep]. rewrite P1. cbn [bind fexec]. unfold Seek. rewrite F. cbn [negb].
  replace (0 <=? max f1) with true by (symmetry; apply N.leb_le; lia). cbn [bind].
  eexists _, _. split; [reflexivity|]. cbn [off data]. rewrite N.sub_0_r, P2, app_length, P4.
  assert (Lx : (0 < length x)%nat) by (destruct x; [congruence|cbn; lia]).
  assert (Lc : (0 < length c)%nat) by (destruct c; [congruence|cbn; lia]). lia.
Qed.
Print Assumptions C125_seek_refuted.

Example C124_ex :
  let ops := [Mine (FWrite [1; 2]); Mine (FSeek FromStart 0); Theirs [9]; Mine (FRead 2); Mine (FWrite [3])] in
  let io := fun _ : nat => Part 5 in
  let '(f, d) := aopen true [7; 8] in
  let '(wf, wd) := wopen true [7; 8] in
  (match arun io io 9 f d ops with Ok (_, d', s) => Some (data d', s) | _ => None end) =
    Some ([7; 8; 1; 2; 9; 3], [AWrote true 2; ADone true; ADone true; ABytes true [7; 8]; AWrote true 1]) /\
  (let '(_, d', s) := wrun io io wf wd ops in (data d', s)) =
    ([7; 8; 3; 2; 9], [AWrote true 2; ADone true; ADone true; ABytes true [7; 8]; AWrote true 1]).
Proof. vm_compute. split; reflexivity. Qed.
Example C125_ex :
  let io := fun _ : nat => Part 5 in
  let '(f, d) := aopen true [7; 8; 9] in
  (match arun io io 9 f d [Mine (FWrite [1]); Mine (FRead 2); Mine (FSeek FromEnd 0); Mine (FRead 2)] with
   | Ok (f', d', s) => Some (data d', curr f', s) | _ => None end) =
    Some ([7; 8; 9; 1], 4, [AWrote true 1; ABytes true []; ADone true; ABytes true [1]]).
Proof. vm_compute. reflexivity. Qed.
