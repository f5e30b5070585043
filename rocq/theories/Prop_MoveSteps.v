(** C147: what is on the disk when a process ends inside of File::Copy or File::Move. *)
From Verif Require Import Base S_Attr S_Secret S_CopyRace M_Attr M_CopyRace M_MoveSteps P_CopyRace.
Open Scope N_scope.

(** The file with contents [S], possibly followed by the bytes C54 is about. *)
Definition holds (f : fs) (i : option nat) (S : bytes) : Prop := exists j n t, i = Some j /\ node f j = Some n /\ data n = S ++ t /\ (length t < COPY)%nat.
(** The file with exactly these contents. *)
Definition is_file (f : fs) (i : option nat) (S : bytes) : Prop := exists j n, i = Some j /\ node f j = Some n /\ data n = S.

Section Moments.
Variable strip : N -> N.
Variable u : user.
Variables mask newgroup : N.
Variable buf0 : bytes.
Notation own := (own strip u mask newgroup buf0).
Notation crun := (crun strip u mask newgroup buf0).
Notation msteps := (msteps strip u mask newgroup buf0).

(** the names, while Copy runs alone *)
Definition names (f0 f : fs) (s : nat) (c : pc) : Prop :=
  src_is f = Some s /\
  match c with
  | PStat1 | PStat2 _ _ | POpen1 _ | PEnd None => dst_is f = dst_is f0 /\ node f = node f0
  | POpen2 _ s' => s' = s /\ dst_is f = dst_is f0 /\ node f = node f0
  | PRead _ s' d _ _ _ | PWrite _ s' d _ _ _ | PTrunc _ s' d _ | PChown _ s' d | PChmod _ s' d | PStat3 _ s' d | PUtime _ s' d _ | PEnd (Some (s', d)) =>
      s' = s /\ dst_is f = Some d /\ d <> s /\ (forall i, i <> d -> node f i = node f0 i)
  end.
Lemma own_names f0 s x y : node f0 s <> None -> own x y -> names f0 (fst x) s (snd x) -> names f0 (fst y) s (snd y).
Proof.
  intros Hs S. destruct S; unfold names; cbn [fst snd]; intros [N1 N2]; try match goal with |- context [by_name ?g ?h] => rewrite ?(proj1 (by_name_names g h)), ?(proj2 (by_name_names g h)) end; (split; [exact N1|]); auto.
  - split; [congruence|]. exact N2.
  - destruct N2 as (-> & N2 & N3). rewrite <- N3. auto.
  - destruct N2 as (-> & N2 & N3). split; [reflexivity|]. split; [reflexivity|]. split; [congruence|]. intros i Hi. rewrite <- N3. apply (set_other f d i _ Hi).
  - destruct N2 as (-> & N2 & N3). auto.
  - destruct N2 as (-> & N2 & N3 & N4). split; [reflexivity|]. split; [exact N2|]. split; [exact N3|]. intros i Hi. rewrite <- N4 by exact Hi. apply (set_other f d i _ Hi).
  - destruct N2 as (-> & N2 & N3 & N4). split; [reflexivity|]. split; [exact N2|]. split; [exact N3|]. intros i Hi. rewrite <- N4 by exact Hi. apply (set_other f d i _ Hi).
  - destruct N2 as (-> & N2 & N3 & N4). split; [reflexivity|]. split; [exact N2|]. split; [exact N3|]. intros i Hi. rewrite by_name_other by congruence. auto.
  - destruct N2 as (-> & N2 & N3 & N4). split; [reflexivity|]. split; [exact N2|]. split; [exact N3|]. intros i Hi. rewrite by_name_other by congruence. auto.
  - destruct N2 as (-> & N2 & N3 & N4). split; [reflexivity|]. split; [exact N2|]. split; [exact N3|]. intros i Hi. rewrite by_name_other by congruence. auto.
Qed.

Definition minv (f0 f : fs) (s : nat) (S : bytes) (m : mpc) : Prop :=
  match m with
  | MRename => f = f0
  | MCopy c => names f0 f s c /\ inv f c
  | MUnlink r => names f0 f s (PEnd (Some r)) /\ inv f (PEnd (Some r))
  | MDone _ => is_file f (src_is f) S \/ holds f (dst_is f) S
  end.
Lemma copy_end f0 f s ns d s' : node f0 s = Some ns -> names f0 f s (PEnd (Some (s', d))) -> inv f (PEnd (Some (s', d))) -> holds f (dst_is f) (data ns).
Proof.
  intros Hn (N1 & -> & N2 & N3 & N4) (_ & S & D & (a & Ea & <-) & (b & Eb & <-) & t & Et & Lt). rewrite N4 in Ea by congruence. assert (a = ns) as -> by congruence.
  exists d, b, t. auto.
Qed.
Lemma names_source f0 f s ns c : node f0 s = Some ns -> names f0 f s c -> is_file f (src_is f) (data ns).
Proof.
  intros Hn [N1 N2]. exists s, ns. split; [exact N1|]. split; [|reflexivity].
  destruct c as [| | | | | | | | | | |[[s' d]|]]; cbn [names] in N2; try (destruct N2 as (_ & N2 & N3 & N4); rewrite N4 by congruence; exact Hn); try (destruct N2 as (_ & _ & N3); rewrite N3; exact Hn); destruct N2 as [_ N3]; rewrite N3; exact Hn.
Qed.
Lemma mstep_inv f0 s ns x y : length buf0 = COPY -> src_is f0 = Some s -> node f0 s = Some ns -> mstep strip u mask newgroup buf0 x y ->
  minv f0 (fst x) s (data ns) (snd x) -> minv f0 (fst y) s (data ns) (snd y).
Proof.
  intros LB Hs Hn S. destruct S as [f i n E1 E2 E3|f i E1 E2|f|f c f' c' O|f|f r|f r|f r]; cbn [fst snd minv].
  - intros ->. right. assert (i = s) as -> by congruence. assert (n = ns) as -> by congruence. exists s, ns, []. rewrite app_nil_r. cbn [length]. pose proof COPY_pos. auto.
  - intros ->. left. exists s, ns. auto.
  - intros ->. split; [|exact I]. split; [exact Hs|split; reflexivity].
  - intros [N V]. split; [exact (own_names f0 s (f, c) (f', c') ltac:(congruence) O N)|exact (own_inv strip u mask newgroup buf0 (f, c) (f', c') LB O V)].
  - intros [N _]. left. exact (names_source f0 f s ns _ Hn N).
  - auto.
  - intros [N V]. right. destruct r as [s' d]. destruct (copy_end f0 f s ns d s' Hn N V) as (j & m & t & H1 & H2 & H3). exists j, m, t. auto.
  - intros [N _]. left. exact (names_source f0 f s ns _ Hn N).
Qed.
Lemma msteps_inv f0 s ns y : length buf0 = COPY -> src_is f0 = Some s -> node f0 s = Some ns -> msteps (f0, MRename) y -> minv f0 (fst y) s (data ns) (snd y).
Proof.
  intros LB Hs Hn R. remember (f0, MRename) as x eqn:Ex. induction R as [x|x y z R IH S]; [subst; reflexivity|]. exact (mstep_inv f0 s ns y z LB Hs Hn S (IH Ex)).
Qed.
End Moments.

(** Wherever Move is interrupted, the source is still there, unchanged, or the destination has its
    contents. *)
Theorem C147_not_lost : forall strip u mask newgroup buf0 f0 s ns f m, length buf0 = COPY -> src_is f0 = Some s -> node f0 s = Some ns ->
  msteps strip u mask newgroup buf0 (f0, MRename) (f, m) -> is_file f (src_is f) (data ns) \/ holds f (dst_is f) (data ns).
Proof.
  intros strip u mask newgroup buf0 f0 s ns f m LB Hs Hn R. pose proof (msteps_inv strip u mask newgroup buf0 f0 s ns _ LB Hs Hn R) as V. cbn [fst snd] in V.
  destruct m as [|c|r|b]; cbn [minv] in V.
  - subst f. left. exists s, ns. auto.
  - left. exact (names_source f0 f s ns c Hn (proj1 V)).
  - left. exact (names_source f0 f s ns _ Hn (proj1 V)).
  - exact V.
Qed.

(** Copy does not touch its source at any moment, nor any other file but one. *)
Theorem C147_source : forall strip u mask newgroup buf0 f0 s f c, src_is f0 = Some s -> node f0 s <> None ->
  crun strip u mask newgroup buf0 nobody (f0, PStat1) (f, c) -> src_is f = Some s /\ (forall i, dst_is f <> Some i -> node f i = node f0 i) /\ node f s = node f0 s.
Proof.
  intros strip u mask newgroup buf0 f0 s f c Hs Hn R.
  assert (N : names f0 f s c).
  { remember (f0, PStat1) as x eqn:Ex. remember (f, c) as y eqn:Ey. revert f c Ey. induction R as [x|x y z R IH S|x g e g' R IH []]; intros f c Ey.
    - subst x. injection Ey as <- <-. split; [exact Hs|split; reflexivity].
    - destruct y as [g e]. pose proof (own_names strip u mask newgroup buf0 f0 s (g, e) z Hn S (IH Ex g e eq_refl)) as X. rewrite Ey in X. exact X. }
  destruct N as [N1 N2]. split; [exact N1|].
  destruct c as [| | | | | | | | | | |[[s' d]|]]; cbn [names] in N2; try (destruct N2 as (_ & N2 & N3 & N4); split; [intros i Hi; apply N4; congruence|apply N4; congruence]); try (destruct N2 as (_ & _ & N3); rewrite N3; auto); destruct N2 as [_ N3]; rewrite N3; auto.
Qed.

(** There is a moment when a new copy exists and is empty, whatever is copied. *)
Theorem C147_empty_refuted : forall strip u mask newgroup buf0 f0 s ns d, src_is f0 = Some s -> node f0 s = Some ns -> may_read u (attr ns) = true ->
  dst_is f0 = None -> node f0 d = None -> exists f c, crun strip u mask newgroup buf0 nobody (f0, PStat1) (f, c) /\ is_file f (dst_is f) [].
Proof.
  intros strip u mask newgroup buf0 f0 s ns d Hs Hn Hr Hd Fd. eexists. eexists. split.
  - eapply cr_own; [eapply cr_own; [eapply cr_own; [eapply cr_own; [apply cr_nil|apply o_stat1; eassumption]|apply o_stat2; congruence]|eapply o_open1; eassumption]|apply (o_open2_new strip u mask newgroup buf0 f0 (attr ns) s d (0, 0)); assumption].
  - exists d. eexists. split; [reflexivity|]. split; [apply (set_same f0 d)|reflexivity].
Qed.

(** Over an old file, there is a moment when the first 8192 bytes are new and the others are old. *)
Theorem C147_mixed_refuted : forall strip u mask newgroup buf0 f0 s ns d nd, length buf0 = COPY -> src_is f0 = Some s -> node f0 s = Some ns -> may_read u (attr ns) = true ->
  dst_is f0 = Some d -> d <> s -> node f0 d = Some nd -> may_write u (attr nd) = true -> (COPY <= length (data ns))%nat ->
  exists f c, crun strip u mask newgroup buf0 nobody (f0, PStat1) (f, c) /\ is_file f (dst_is f) (firstn COPY (data ns) ++ skipn COPY (data nd)).
Proof.
  intros strip u mask newgroup buf0 f0 s ns d nd LB Hs Hn Hr Hd Ne Hnd Hw Ls. pose proof COPY_pos as CP.
  pose proof (o_read strip u mask newgroup buf0 f0 (attr ns) s d 0 0 buf0 ns Hn ltac:(lia)) as S1. cbv zeta in S1. cbn [skipn] in S1.
  assert (Lc : length (firstn COPY (data ns)) = COPY) by (rewrite firstn_length; lia). rewrite Lc in S1. rewrite skipn_all2, app_nil_r in S1 by lia.
  eexists. eexists. split.
  - eapply cr_own; [|apply (o_write strip u mask newgroup buf0 f0 (attr ns) s d (0 + COPY) 0 (firstn COPY (data ns)) nd Hnd)]. eapply cr_own; [|exact S1].
    eapply cr_own; [eapply cr_own; [eapply cr_own; [eapply cr_own; [apply cr_nil|apply o_stat1; eassumption]|apply o_stat2; congruence]|eapply o_open1; eassumption]|eapply o_open2; eassumption].
  - exists d. eexists. split; [exact Hd|]. split; [apply (set_same f0 d)|]. cbn [data]. unfold put. cbn [firstn app Nat.sub Nat.add repeat]. rewrite Lc. destruct (length (data nd)); reflexivity.
Qed.

(** A file of two blocks of ones is copied over a file of two blocks of twos. *)
Example C147_ex : let a := Attrs 0 0 420 (0, 0) (0, 0) in
  let f0 := FS (Some 1%nat) (Some 2%nat) (fun i => match i with 1%nat => Some (Fl a (repeat 1 (COPY + COPY))) | 2%nat => Some (Fl a (repeat 2 (COPY + COPY))) | _ => None end) in
  exists f c, crun (fun p => p) (User 0 (fun _ => true)) 18 0 (repeat 0 COPY) nobody (f0, PStat1) (f, c) /\ is_file f (dst_is f) (repeat 1 COPY ++ repeat 2 COPY).
Proof.
  intros a f0. destruct (C147_mixed_refuted (fun p => p) (User 0 (fun _ => true)) 18 0 (repeat 0 COPY) f0 1%nat (Fl a (repeat 1 (COPY + COPY))) 2%nat (Fl a (repeat 2 (COPY + COPY)))) as (f & c & R & H); try reflexivity.
  - discriminate.
  - cbn [data]. rewrite repeat_length. lia.
  - exists f, c. split; [exact R|]. cbn [data] in H. rewrite !repeat_app in H. rewrite firstn_app, repeat_length, Nat.sub_diag, firstn_all2 in H by (rewrite repeat_length; lia). cbn [firstn] in H. rewrite app_nil_r in H.
    rewrite skipn_app, repeat_length, Nat.sub_diag, skipn_all2 in H by (rewrite repeat_length; lia). exact H.
Qed.

(** A Move in one file system, over a file that was there. *)
Example C147_ex_move : let a := Attrs 0 0 420 (0, 0) (0, 0) in
  let f0 := FS (Some 1%nat) (Some 2%nat) (fun i => match i with 1%nat => Some (Fl a [1; 2]) | 2%nat => Some (Fl a [3]) | _ => None end) in
  exists f, msteps (fun p => p) (User 0 (fun _ => true)) 18 0 (repeat 0 COPY) (f0, MRename) (f, MDone true) /\ src_is f = None /\ is_file f (dst_is f) [1; 2].
Proof.
  intros a f0. exists (FS None (Some 1%nat) (node f0)). split; [|split; [reflexivity|exists 1%nat, (Fl a [1; 2]); auto]].
  eapply ms_step; [apply ms_nil|]. apply (m_rename _ _ _ _ _ f0 1%nat (Fl a [1; 2])); [reflexivity|reflexivity|discriminate].
Qed.

Print Assumptions C147_not_lost.
Print Assumptions C147_source.
Print Assumptions C147_empty_refuted.
Print Assumptions C147_mixed_refuted.
