(** Proofs about appending. *)
From Verif Require Import Base S_File M_File M_WinFile P_File S_Append M_Append.
Open Scope N_scope.
Local Arguments N.pow : simpl never.
Local Arguments W64 : simpl never.

Lemma sys_write_end ew d b : off d = N.of_nat (length (data d)) ->
  sys_write ew d b =
    match ew (used d) with
    | Fail => (tick d, None)
    | Intr => (tick d, Some None)
    | Part k => (Disk (data d ++ firstn k b) (off d + N.of_nat (length (firstn k b))) (S (used d)), Some (Some (length (firstn k b))))
    end.
Proof.
  intros H. unfold sys_write. destruct (ew (used d)); auto. rewrite H, Nat2N.id, firstn_all, Nat.sub_diag.
  cbn [repeat app]. rewrite skipn_all2 by lia. now rewrite app_nil_r.
Qed.

Section Env.
Variables er ew : nat -> ev.

Lemma sys_append_eq d b : sys_append ew d b =
    match ew (used d) with
    | Fail => (tick d, None)
    | Intr => (tick d, Some None)
    | Part k => (Disk (data d ++ firstn k b) (N.of_nat (length (data d)) + N.of_nat (length (firstn k b))) (S (used d)), Some (Some (length (firstn k b))))
    end.
Proof.
  unfold sys_append. destruct (ew (used d)) as [k| |] eqn:E.
  - rewrite sys_write_end by reflexivity. cbn [used data off]. now rewrite E.
  - unfold sys_write. now rewrite E.
  - unfold sys_write. now rewrite E.
Qed.

Lemma append_grows fuel : forall d b i left d' ok n,
  append_loop ew fuel d b i left = Ok (d', ok, n) -> grows (data d) (data d').
Proof.
  induction fuel as [|g IH]; intros d b i left d' ok n; [discriminate|]. cbn [append_loop]. rewrite sys_append_eq.
  destruct (ew (used d)) as [k| |].
  - destruct (_ =? 0)%nat.
    + intros H. inversion H; subst. eexists. reflexivity.
    + intros H. apply IH in H. destruct H as [x Hx]. cbn [data] in Hx. rewrite <- app_assoc in Hx. eexists. exact Hx.
  - destruct i as [|j]; [discriminate|]. intros H. apply IH in H. exact H.
  - intros H. inversion H; subst. exists []. cbn. now rewrite app_nil_r.
Qed.

Lemma append_exact (He : forall k, ew k <> Intr) fuel : forall d b i left d' ok n, (i + left = length b)%nat ->
  append_loop ew fuel d b i left = Ok (d', ok, n) ->
  exists m, (m <= left)%nat /\ n = (i + m)%nat /\ data d' = data d ++ firstn m (skipn i b) /\ (ok = true -> m = left) /\
    (ok = true -> off d' = N.of_nat (length (data d'))).
Proof.
  induction fuel as [|g IH]; intros d b i left d' ok n Hb; [discriminate|]. cbn [append_loop]. rewrite sys_append_eq.
  destruct (ew (used d)) as [k| |] eqn:E; [|now apply He in E|].
  - rewrite firstn_firstn.
    assert (L : length (firstn (Nat.min k left) (skipn i b)) = Nat.min k left) by (rewrite firstn_length, skipn_length; lia).
    rewrite L. destruct (Nat.eqb_spec (left - Nat.min k left) 0) as [Z|Z].
    + intros H. inversion H; subst. exists left. replace (Nat.min k left) with left in * by lia.
      split; [lia|]. split; [reflexivity|]. cbn [data off]. split; [reflexivity|]. split; [reflexivity|].
      intros _. rewrite app_length, L. lia.
    + replace (Nat.min k left) with k in * by lia. intros H. apply IH in H; [|lia].
      destruct H as (m & H1 & H2 & H3 & H4 & H5). exists (k + m)%nat. cbn [data] in H3.
      split; [lia|]. split; [lia|]. split; [|split; [intros O; specialize (H4 O); lia|exact H5]].
      rewrite H3, <- app_assoc, firstn_plus, skipn_skipn. now rewrite (Nat.add_comm k i).
  - intros H. inversion H; subst. exists O. cbn. rewrite app_nil_r. repeat split; auto; try lia; discriminate.
Qed.

Lemma append_no_UB (He : forall k, ew k <> Intr) fuel : forall d b i left, append_loop ew fuel d b i left <> UB.
Proof.
  induction fuel as [|g IH]; intros d b i left; [discriminate|]. cbn [append_loop]. rewrite sys_append_eq.
  destruct (ew (used d)) as [k| |] eqn:E; [|now apply He in E|discriminate]. destruct (_ =? 0)%nat; [discriminate|apply IH].
Qed.

Lemma read_data fuel f d n f' d' b x : Read er fuel f d n = Ok (f', d', b, x) -> data d' = data d.
Proof.
  unfold Read. destruct (negb (opened f) || negb (reads f))%bool; [intros H; now inversion H|].
  destruct (_ =? 0); [intros H; now inversion H|].
  match goal with |- context [read_loop er fuel d ?m] => pose proof (read_loop_ok er fuel d m) as L; destruct (read_loop er fuel d m) as [[d1 r]| |] end;
    cbn [bind]; [|discriminate|discriminate]. destruct L as [L _]. destruct r; intros H; inversion H; subst; exact L.
Qed.

Lemma seek_data f d w p f' d' b : Seek f d w p = (f', d', b) -> data d' = data d.
Proof. unfold Seek. destruct (negb (opened f)); intros H; inversion H; reflexivity. Qed.

Lemma astep_grows fuel f d o f' d' a : astep er ew fuel f d o = Ok (f', d', a) -> grows (data d) (data d').
Proof.
  assert (Z : forall x : bytes, grows x x) by (intros x; exists []; now rewrite app_nil_r).
  destruct o as [[w k|n|x]|x]; cbn [astep fexec].
  - destruct (Seek f d w k) as [[f1 d1] b] eqn:E. intros H. inversion H; subst. apply seek_data in E. rewrite E. apply Z.
  - destruct (Read er fuel f d n) as [[[[f1 d1] b] y]| |] eqn:E; cbn [bind]; [|discriminate|discriminate].
    intros H. inversion H; subst. apply read_data in E. rewrite E. apply Z.
  - unfold AWrite. destruct (_ || _)%bool; [intros H; inversion H; subst; apply Z|].
    destruct (_ =? 0)%nat; [intros H; inversion H; subst; apply Z|].
    destruct (append_loop ew fuel d x 0 (length x)) as [[[d1 ok] n]| |] eqn:E; cbn [bind]; [|discriminate|discriminate].
    apply append_grows in E. destruct ok; cbn [bind]; intros H; inversion H; subst; exact E.
  - intros H. inversion H; subst. exists x. reflexivity.
Qed.

Lemma grows_trans a b c : grows a b -> grows b c -> grows a c.
Proof. intros [x ->] [y ->]. exists (x ++ y). now rewrite app_assoc. Qed.

Lemma arun_grows fuel : forall l f d f' d' r, arun er ew fuel f d l = Ok (f', d', r) -> grows (data d) (data d').
Proof.
  induction l as [|o l IH]; intros f d f' d' r; cbn [arun].
  - intros H. inversion H; subst. exists []. now rewrite app_nil_r.
  - destruct (astep er ew fuel f d o) as [[[f1 d1] a]| |] eqn:E; cbn [bind]; [|discriminate|discriminate].
    destruct (arun er ew fuel f1 d1 l) as [[[f2 d2] s]| |] eqn:E2; cbn [bind]; [|discriminate|discriminate].
    intros H. inversion H; subst. eapply grows_trans; [eapply astep_grows; eauto|eapply IH; eauto].
Qed.

Lemma astep_exact (He : forall k, ew k <> Intr) fuel f d o f' d' a :
  astep er ew fuel f d o = Ok (f', d', a) -> data d' = data d ++ added o a.
Proof.
  destruct o as [[w k|n|x]|x]; cbn [astep fexec].
  - destruct (Seek f d w k) as [[f1 d1] b] eqn:E. intros H. inversion H; subst. apply seek_data in E. rewrite E. cbn. now rewrite app_nil_r.
  - destruct (Read er fuel f d n) as [[[[f1 d1] b] y]| |] eqn:E; cbn [bind]; [|discriminate|discriminate].
    intros H. inversion H; subst. apply read_data in E. rewrite E. cbn. now rewrite app_nil_r.
  - unfold AWrite. destruct (_ || _)%bool; [intros H; inversion H; subst; cbn; now rewrite app_nil_r|].
    destruct (_ =? 0)%nat; [intros H; inversion H; subst; cbn; now rewrite app_nil_r|].
    destruct (append_loop ew fuel d x 0 (length x)) as [[[d1 ok] n]| |] eqn:E; cbn [bind]; [|discriminate|discriminate].
    apply append_exact in E; auto. destruct E as (m & H1 & H2 & H3 & _). cbn [Nat.add skipn] in H2, H3. subst n.
    destruct ok; cbn [bind]; intros H; inversion H; subst; cbn [added]; now rewrite Nat2N.id.
  - intros H. inversion H; subst. reflexivity.
Qed.

Lemma arun_exact (He : forall k, ew k <> Intr) fuel : forall l f d f' d' r, arun er ew fuel f d l = Ok (f', d', r) ->
  length r = length l /\ data d' = data d ++ all_added l r.
Proof.
  induction l as [|o l IH]; intros f d f' d' r; cbn [arun].
  - intros H. inversion H; subst. cbn. now rewrite app_nil_r.
  - destruct (astep er ew fuel f d o) as [[[f1 d1] a]| |] eqn:E; cbn [bind]; [|discriminate|discriminate].
    destruct (arun er ew fuel f1 d1 l) as [[[f2 d2] s]| |] eqn:E2; cbn [bind]; [|discriminate|discriminate].
    intros H. inversion H; subst. apply IH in E2. destruct E2 as [L D]. split; [cbn; now rewrite L|].
    rewrite D, (astep_exact He _ _ _ _ _ _ _ E). cbn [all_added]. now rewrite app_assoc.
Qed.

Lemma read_no_UB fuel f d n : Read er fuel f d n <> UB.
Proof.
  unfold Read. destruct (_ || _)%bool; [discriminate|]. destruct (_ =? 0); [discriminate|].
  match goal with |- context [read_loop er fuel d ?m] => pose proof (read_loop_ok er fuel d m) as L; destruct (read_loop er fuel d m) as [[d1 [r|]]| |] end;
    cbn [bind]; try discriminate. contradiction.
Qed.

Lemma arun_no_UB (He : forall k, ew k <> Intr) fuel : forall l f d, arun er ew fuel f d l <> UB.
Proof.
  induction l as [|o l IH]; intros f d; [discriminate|]. cbn [arun].
  assert (A : astep er ew fuel f d o <> UB).
  { destruct o as [[w k|n|x]|x]; cbn [astep fexec].
    - destruct (Seek f d w k) as [[f1 d1] b]. discriminate.
    - pose proof (read_no_UB fuel f d n) as R. destruct (Read er fuel f d n) as [[[[f1 d1] b] y]| |]; cbn [bind]; congruence.
    - unfold AWrite. destruct (_ || _)%bool; [discriminate|]. destruct (_ =? 0)%nat; [discriminate|].
      pose proof (append_no_UB He fuel d x 0 (length x)) as R.
      destruct (append_loop ew fuel d x 0 (length x)) as [[[d1 ok] n]| |]; cbn [bind]; [destruct ok; discriminate|congruence|discriminate].
    - discriminate. }
  destruct (astep er ew fuel f d o) as [[[f1 d1] a]| |]; cbn [bind]; [|congruence|discriminate].
  specialize (IH f1 d1). destruct (arun er ew fuel f1 d1 l) as [[[f2 d2] s]| |]; cbn [bind]; congruence.
Qed.

(** ** The object at the end of the file *)
Definition at_end (f : file) (d : disk) : Prop :=
  opened f = true /\ writes f = true /\ curr f = N.of_nat (length (data d)) /\ max f = curr f /\ off d = curr f.

Lemma wstep_plain f d o f' d' a : at_end f d -> plain o -> N.of_nat (length (data d) + op_size o) < 2 ^ 62 ->
  wstep er ew f d o = (f', d', a) ->
  at_end f' d' /\ reads f' = reads f /\ data d' = data d ++ added o a /\ (length (data d') <= length (data d) + op_size o)%nat /\
  a = match o with Mine (FRead _) => ABytes (reads f) [] | _ => a end.
Proof.
  intros A P Z H. pose proof A as (A1 & A2 & A3 & A4 & A5). destruct o as [[w k|n|x]|x]; try contradiction; cbn [wstep wexec] in H.
  - unfold WRead in H. rewrite A1 in H. cbn [negb orb] in H. destruct (reads f) eqn:ER; cbn [negb] in H.
    2:{ inversion H; subst. cbn. rewrite app_nil_r. repeat split; auto. lia. }
    assert (S0 : forall c, sub64 c c = 0) by (intros c; rewrite sub64_le by lia; lia).
    rewrite A4, S0 in H. unfold UpdateMaxPos in H. rewrite A1 in H.
    destruct (N.ltb_spec 0 n).
    + cbn [fst curr max] in H. rewrite <- A3, S0 in H. destruct (N.ltb_spec 0 n); [|lia]. change (0 =? 0) with true in H. cbn iota in H. inversion H; subst. cbn. rewrite app_nil_r. unfold at_end. cbn. rewrite ER. repeat split; auto. lia.
    + replace n with 0 in H by lia. change (0 =? 0) with true in H. cbn iota in H. inversion H; subst. cbn. rewrite app_nil_r. rewrite ER. repeat split; auto. lia.
  - unfold WWrite in H. rewrite A1, A2 in H. cbn [negb orb op_size] in H, Z.
    destruct (Nat.eqb_spec (length x) 0) as [E|E].
    { inversion H; subst. cbn. rewrite app_nil_r. repeat split; auto. lia. }
    rewrite sys_write_end in H by congruence. destruct (ew (used d)) as [k| |].
    + rewrite firstn_firstn in H. set (q := Nat.min k (dword (N.of_nat (length x)))) in *.
      assert (L : (length (firstn q x) <= length x)%nat) by (rewrite firstn_length; lia).
      rewrite w64_small in H by (rewrite W64_val; rewrite P62_val in Z; lia).
      inversion H; subst f' d' a; clear H. cbn [added data]. rewrite Nat2N.id, firstn_own. unfold at_end. cbn [opened writes curr max off data reads op_size].
      rewrite app_length. rewrite A4.
      split; [|split; [reflexivity|split; [reflexivity|split; [lia|reflexivity]]]].
      split; [auto|]. split; [auto|]. split; [lia|]. split; [|now rewrite A5].
      destruct (N.ltb_spec (curr f) (curr f + N.of_nat (length (firstn q x)))); lia.
    + inversion H; subst. cbn. rewrite app_nil_r. repeat split; auto. lia.
    + inversion H; subst. cbn. rewrite app_nil_r. repeat split; auto. lia.
Qed.

Lemma wrun_plain : forall l f d f' d' r, at_end f d -> Forall plain l -> N.of_nat (length (data d) + total l) < 2 ^ 62 ->
  wrun er ew f d l = (f', d', r) ->
  length r = length l /\ data d' = data d ++ all_added l r /\ at_end f' d'.
Proof.
  induction l as [|o l IH]; intros f d f' d' r A P Z; cbn [wrun].
  - intros H. inversion H; subst. cbn. now rewrite app_nil_r.
  - inversion P; subst. cbn [total] in Z. destruct (wstep er ew f d o) as [[f1 d1] a] eqn:E.
    destruct (wrun er ew f1 d1 l) as [[f2 d2] s] eqn:E2. intros H. inversion H; subst.
    destruct (wstep_plain f d o f1 d1 a A H1 ltac:(lia) E) as (B1 & B2 & B3 & B4 & _).
    destruct (IH f1 d1 f' d' s B1 H2 ltac:(lia) E2) as (L & D & C). split; [cbn; now rewrite L|]. split; auto.
    rewrite D, B3. cbn [all_added]. now rewrite app_assoc.
Qed.
End Env.

Lemma wopen_eq r c : wopen r c = (File true r true (N.of_nat (length c)) (N.of_nat (length c)), Disk c (N.of_nat (length c)) 0).
Proof.
  unfold wopen, Seek. cbn [opened negb max reads writes data used]. replace (0 <=? N.of_nat (length c)) with true by (symmetry; apply N.leb_le; lia).
  now rewrite N.sub_0_r.
Qed.
Lemma wopen_end r c : at_end (fst (wopen r c)) (snd (wopen r c)) /\ data (snd (wopen r c)) = c.
Proof. rewrite wopen_eq. repeat split. Qed.
