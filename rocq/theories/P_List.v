(** The list model refines the sequence specification. *)
From Verif Require Import Base S_Seq M_Dll M_List P_Dll.

Section P.
Context {V : Type}.
Implicit Types (w : world V) (A : abs V).

Record R w A : Prop := mkR {
  R_alive : forall x, alive w x = true <-> exists_node A x;
  R_value : forall x, vl w x = value A x;
  R_null : value A 0 = None;
  R_list : forall i, dlist (lnk w) (ends_ (lists w i)) (seqs A i);
  R_num : forall i, num (lists w i) = N.of_nat (length (seqs A i));
  R_owned : forall i x, In x (seqs A i) -> exists_node A x;
  R_disj : forall i j x, In x (seqs A i) -> In x (seqs A j) -> i = j;
  R_loose : forall x, exists_node A x -> ~ attached A x -> nx (lnk w) x = 0 /\ pv (lnk w) x = 0 }.

Lemma R_init : R init start.
Proof.
  split; cbn; auto; try tauto.
  - intros x. unfold exists_node. cbn. split; congruence.
  - intros i. repeat split; auto. constructor.
Qed.

Lemma R_alive_in w A i x : R w A -> In x (seqs A i) -> alive w x = true.
Proof. intros H Hi. apply (R_alive _ _ H). eapply R_owned; eauto. Qed.

Lemma node_ne0 w A x : R w A -> exists_node A x -> x <> 0.
Proof. intros H Hx ->. apply Hx. apply (R_null _ _ H). Qed.

(** Sequence facts. *)
Lemma in_put_before pos x xs y : In y (put_before pos x xs) <-> y = x \/ In y xs.
Proof.
  induction xs as [|z r IH]; cbn.
  - split; intros [H|H]; auto.
  - destruct (Nat.eqb z pos); cbn; rewrite ?IH; split; intuition.
Qed.

Lemma in_put_after pos x xs y : position (V:=V) (Abs (fun _ => xs) (fun _ => None)) 0 pos -> In y (put_after pos x xs) <-> y = x \/ In y xs.
Proof.
  unfold position, put_after; cbn. destruct (Nat.eqb_spec pos 0) as [->|H0].
  - intros _. cbn. split; intuition.
  - intros [?|H]; [congruence|].
    induction xs as [|z r IH]; [destruct H|]. cbn.
    destruct (Nat.eqb_spec z pos) as [->|Hz]; cbn; [split; intuition|].
    rewrite IH; [split; intuition|]. destruct H; congruence.
Qed.

Lemma length_put_before pos x xs : length (put_before pos x xs) = S (length xs).
Proof. induction xs as [|z r IH]; cbn; auto. destruct (Nat.eqb z pos); cbn; auto. Qed.

Lemma length_put_after pos x xs : pos = 0 \/ In pos xs -> length (put_after pos x xs) = S (length xs).
Proof.
  unfold put_after. destruct (Nat.eqb_spec pos 0) as [->|H0]; [reflexivity|].
  intros [?|H]; [congruence|].
  induction xs as [|z r IH]; [destruct H|]. cbn.
  destruct (Nat.eqb_spec z pos) as [->|Hz]; cbn; auto. f_equal. apply IH. destruct H; congruence.
Qed.

Lemma in_without x xs y : In y (without x xs) <-> y <> x /\ In y xs.
Proof.
  unfold without. rewrite filter_In, negb_true_iff, Nat.eqb_neq. tauto.
Qed.

Lemma length_without x xs : NoDup xs -> In x xs -> length xs = S (length (without x xs)).
Proof.
  intros Nd Hi. apply in_split in Hi as (l & r & ->).
  destruct (NoDup_mid _ _ _ Nd) as (Pl & Pr & _). rewrite without_mid by auto.
  rewrite !app_length. cbn. lia.
Qed.

(** A list changed, the others framed. *)
Lemma R_change w A i L' E' xs' n' al' vl' val' :
  R w A ->
  (forall x, al' x = true <-> val' x <> None) ->
  (forall x, vl' x = val' x) -> val' 0 = None ->
  dlist L' E' xs' -> n' = N.of_nat (length xs') ->
  (* other lists untouched *)
  (forall j x, j <> i -> In x (seqs A j) -> nx L' x = nx (lnk w) x /\ pv L' x = pv (lnk w) x) ->
  (forall j x, j <> i -> In x (seqs A j) -> val' x <> None /\ ~ In x xs') ->
  (forall x, In x xs' -> val' x <> None) ->
  (forall x, val' x <> None -> ~ In x xs' -> (forall j, j <> i -> ~ In x (seqs A j)) ->
     nx L' x = 0 /\ pv L' x = 0) ->
  R (World al' L' vl' (fupd (lists w) i (Lst E' n'))) (Abs (fupd (seqs A) i xs') val').
Proof.
  intros H Hal Hvl H0 Hd Hn Ho1 Ho2 Hin Hl. split; cbn [alive lnk vl lists seqs value]; auto.
  - intros j. destruct (Nat.eq_dec j i) as [->|D].
    + rewrite !fupd_same. exact Hd.
    + rewrite !fupd_other by auto. apply dlist_frame with (lnk w); [|apply (R_list _ _ H)].
      intros x Hx. now apply (Ho1 j).
  - intros j. destruct (Nat.eq_dec j i) as [->|D].
    + rewrite !fupd_same. exact Hn.
    + rewrite !fupd_other by auto. apply (R_num _ _ H).
  - intros j x. unfold exists_node; cbn. destruct (Nat.eq_dec j i) as [->|D].
    + rewrite fupd_same. apply Hin.
    + rewrite fupd_other by auto. intros Hx. now apply (Ho2 j).
  - intros j k x.
    destruct (Nat.eq_dec j i) as [->|D]; destruct (Nat.eq_dec k i) as [->|D2]; auto.
    + rewrite fupd_same, fupd_other by auto. intros H1 H2. destruct (Ho2 k x D2 H2). tauto.
    + rewrite fupd_same, fupd_other by auto. intros H1 H2. destruct (Ho2 j x D H1). tauto.
    + rewrite !fupd_other by auto. apply (R_disj _ _ H).
  - intros x Hx Ha. apply Hl; auto.
    + intros K. apply Ha. exists i. cbn. now rewrite fupd_same.
    + intros j D K. apply Ha. exists j. cbn. now rewrite fupd_other.
Qed.

(** new *)
Lemma R_new w A v a : R w A -> free_address A a ->
  exists w', new w (Some v) a = Ok w' /\ R w' (Abs (seqs A) (fupd (value A) a (Some v))) /\ lists w' = lists w.
Proof.
  intros H [F0 F1]. unfold new.
  assert (alive w a = false) as Hal.
  { destruct (alive w a) eqn:E; auto. apply (R_alive _ _ H) in E. destruct (E F1). }
  rewrite (eqb_0 _ F0), Hal. cbn [orb].
  eexists; split; [reflexivity|]. split; [|reflexivity].
  assert (Hna : forall i, ~ In a (seqs A i)).
  { intros i K. apply (R_owned _ _ H) in K. auto. }
  split; cbn [alive lnk vl lists seqs value].
  - intros x. unfold exists_node; cbn. destruct (Nat.eq_dec x a) as [->|D].
    + rewrite !fupd_same. split; congruence.
    + rewrite !fupd_other by auto. apply (R_alive _ _ H).
  - intros x. destruct (Nat.eq_dec x a) as [->|D]; fu; auto; rewrite ?fupd_other by auto; apply (R_value _ _ H).
  - rewrite fupd_other by auto. apply (R_null _ _ H).
  - intros i. apply dlist_frame with (lnk w); [|apply (R_list _ _ H)].
    intros x Hx. cbn. rewrite !fupd_other; auto; intros ->; eapply Hna; eauto.
  - apply (R_num _ _ H).
  - intros i x Hx. unfold exists_node; cbn. destruct (Nat.eq_dec x a) as [->|D]; fu; [congruence|].
    rewrite ?fupd_other by auto. eapply R_owned; eauto.
  - apply (R_disj _ _ H).
  - intros x Hx Ha. cbn. destruct (Nat.eq_dec x a) as [->|D]; fu; auto;
    rewrite ?fupd_other by auto. apply (R_loose _ _ H).
    + unfold exists_node in *; cbn in Hx. now rewrite fupd_other in Hx by auto.
    + exact Ha.
Qed.

Lemma R_delete w A x : R w A -> exists_node A x -> ~ attached A x ->
  exists w', delete w x = Ok w' /\ R w' (Abs (seqs A) (fupd (value A) x None)) /\ lists w' = lists w.
Proof.
  intros H Hx Ha. unfold delete. rewrite (proj2 (R_alive _ _ H x) Hx).
  eexists; split; [reflexivity|]. split; [|reflexivity].
  split; cbn [alive lnk vl lists seqs value].
  - intros y. unfold exists_node; cbn. destruct (Nat.eq_dec y x) as [->|D].
    + rewrite !fupd_same. split; congruence.
    + rewrite !fupd_other by auto. apply (R_alive _ _ H).
  - intros y. destruct (Nat.eq_dec y x) as [->|D]; fu; auto; rewrite ?fupd_other by auto; apply (R_value _ _ H).
  - destruct (Nat.eq_dec 0 x) as [<-|D]; fu; auto; rewrite ?fupd_other by auto. apply (R_null _ _ H).
  - apply (R_list _ _ H).
  - apply (R_num _ _ H).
  - intros i y Hy. unfold exists_node; cbn. rewrite fupd_other; [eapply R_owned; eauto|].
    intros ->. apply Ha. now exists i.
  - apply (R_disj _ _ H).
  - intros y Hy Hb. apply (R_loose _ _ H); auto.
    unfold exists_node in *; cbn in Hy. destruct (Nat.eq_dec y x) as [->|D]; fu; auto;
    now rewrite ?fupd_other in Hy by auto.
Qed.

(** Attaching a loose node anywhere. *)
Lemma R_attach w A i xs' x E' L' :
  R w A -> exists_node A x -> ~ attached A x ->
  dlist L' E' xs' -> (forall y, In y xs' <-> y = x \/ In y (seqs A i)) ->
  length xs' = S (length (seqs A i)) ->
  same_off (x :: seqs A i) (lnk w) L' ->
  R (set_list (set_links w L') i (Lst E' (num (lists w i) + 1))) (Abs (fupd (seqs A) i xs') (value A)).
Proof.
  intros H Hx Ha Hd Hin Hlen Hoff.
  assert (Hd2 : forall j y, j <> i -> In y (seqs A j) -> ~ In y (x :: seqs A i)).
  { intros j y D Hj [<-|Hi]; [apply Ha; now exists j|]. apply D. now apply (R_disj _ _ H j i y). }
  unfold set_list, set_links; cbn [alive lnk vl lists].
  apply R_change.
  - exact H.
  - apply (R_alive _ _ H).
  - apply (R_value _ _ H).
  - apply (R_null _ _ H).
  - assumption.
  - rewrite (R_num _ _ H), Hlen. lia.
  - intros j y D Hj. apply Hoff. eauto.
  - intros j y D Hj. split; [eapply R_owned; eauto|]. rewrite Hin. intros K.
    apply (Hd2 j y D Hj). cbn. destruct K; auto.
  - intros y. rewrite Hin. intros [->|K]; auto. eapply R_owned; eauto.
  - intros y Hy Hn Hj. rewrite Hin in Hn.
    destruct (Hoff y) as [-> ->]; [cbn; intuition|].
    apply (R_loose _ _ H); auto. intros [j K]. destruct (Nat.eq_dec j i) as [->|D]; [tauto|].
    eapply Hj; eauto.
Qed.

Lemma sim_attach_before w A i pos x :
  R w A -> exists_node A x -> ~ attached A x -> position A i pos ->
  exists w', attach_before w i pos x = Ok (w', x) /\
    R w' (Abs (fupd (seqs A) i (put_before pos x (seqs A i))) (value A)) /\
    (forall j, j <> i -> lists w' j = lists w j).
Proof.
  intros H Hx Ha Hp.
  pose proof (R_list _ _ H i) as D.
  destruct (R_loose _ _ H x Hx Ha) as [Lx1 Lx2].
  assert (X0 : x <> 0) by (eapply node_ne0; eauto).
  assert (Xn : ~ In x (seqs A i)) by (intros K; apply Ha; now exists i).
  assert (Ax : alive w x = true) by now apply (R_alive _ _ H).
  assert (Al : forall y, In y (seqs A i) -> alive w y = true) by (intros y; eapply R_alive_in; eauto).
  assert (exists L' E', link_before (alive w) (lnk w) (ends_ (lists w i)) pos x = Ok (L', E') /\
     dlist L' E' (put_before pos x (seqs A i)) /\ same_off (x :: seqs A i) (lnk w) L') as (L' & E' & El & D' & Off).
  { destruct Hp as [->|Hp].
    - rewrite put_before_end by apply D. now apply link_before_end.
    - apply in_split in Hp as (l & r & E). rewrite E in *. destruct D as (Nd & D).
      rewrite put_before_mid by apply (NoDup_mid _ _ _ Nd). apply link_before_mid; auto. now split. }
  unfold attach_before. rewrite El. cbn [bind]. eexists; split; [reflexivity|]. split.
  - eapply R_attach; eauto; [intros; apply in_put_before | apply length_put_before].
  - intros j Dj. cbn. now rewrite fupd_other.
Qed.

Lemma sim_attach_after w A i pos x :
  R w A -> exists_node A x -> ~ attached A x -> position A i pos ->
  exists w', attach_after w i pos x = Ok (w', x) /\
    R w' (Abs (fupd (seqs A) i (put_after pos x (seqs A i))) (value A)).
Proof.
  intros H Hx Ha Hp.
  pose proof (R_list _ _ H i) as D.
  destruct (R_loose _ _ H x Hx Ha) as [Lx1 Lx2].
  assert (X0 : x <> 0) by (eapply node_ne0; eauto).
  assert (Xn : ~ In x (seqs A i)) by (intros K; apply Ha; now exists i).
  assert (Ax : alive w x = true) by now apply (R_alive _ _ H).
  assert (Al : forall y, In y (seqs A i) -> alive w y = true) by (intros y; eapply R_alive_in; eauto).
  assert (exists L' E', link_after (alive w) (lnk w) (ends_ (lists w i)) pos x = Ok (L', E') /\
     dlist L' E' (put_after pos x (seqs A i)) /\ same_off (x :: seqs A i) (lnk w) L') as (L' & E' & El & D' & Off).
  { destruct Hp as [->|Hp].
    - now apply link_after_front.
    - assert (P0 : pos <> 0) by (intros ->; apply D; auto).
      apply in_split in Hp as (l & r & E). rewrite E in *. destruct D as (Nd & D).
      rewrite put_after_mid by (auto; apply (NoDup_mid _ _ _ Nd)). apply link_after_mid; auto. now split. }
  unfold attach_after. rewrite El. cbn [bind]. eexists; split; [reflexivity|].
  eapply R_attach; eauto; [intros; apply in_put_after; exact Hp | apply length_put_after; exact Hp].
Qed.

Lemma sim_detach w A i x :
  R w A -> In x (seqs A i) ->
  exists w', detach w i x = Ok (w', 1) /\
    R w' (Abs (fupd (seqs A) i (without x (seqs A i))) (value A)) /\
    (forall j, j <> i -> lists w' j = lists w j).
Proof.
  intros H Hi. pose proof (R_list _ _ H i) as D.
  assert (Hx : exists_node A x) by (eapply R_owned; eauto).
  unfold detach. rewrite (eqb_0 x) by (eapply node_ne0; eauto).
  assert (Al : forall y, In y (seqs A i) -> alive w y = true) by (intros y; eapply R_alive_in; eauto).
  assert (Nd : NoDup (seqs A i)) by apply D.
  pose proof Hi as Hi0. apply in_split in Hi as (l & r & E).
  pose proof Nd as Nd0. rewrite E in Nd0. destruct (NoDup_mid _ _ _ Nd0) as (Pl & Pr & _).
  rewrite E in D, Al.
  destruct (unlink_mid _ _ _ _ _ _ D Al) as (L' & E' & El & D' & N0 & P0 & Off).
  rewrite El. cbn [bind]. eexists; split; [reflexivity|]. split.
  2: { intros j Dj. cbn. now rewrite fupd_other. }
  assert (Ew : without x (seqs A i) = l ++ r) by (rewrite E; now apply without_mid).
  rewrite <- E in Off. rewrite <- Ew in D'.
  unfold set_list, set_links; cbn [alive lnk vl lists].
  apply R_change.
  - exact H.
  - apply (R_alive _ _ H).
  - apply (R_value _ _ H).
  - apply (R_null _ _ H).
  - assumption.
  - rewrite (R_num _ _ H). rewrite (length_without x (seqs A i)) by auto. lia.
  - intros j y Dj Hj. apply Off. intros K. apply Dj. now apply (R_disj _ _ H j i y).
  - intros j y Dj Hj. split; [eapply R_owned; eauto|]. rewrite in_without. intros [_ K].
    apply Dj. now apply (R_disj _ _ H j i y).
  - intros y. rewrite in_without. intros [_ K]. eapply R_owned; eauto.
  - intros y Hy Hn Hj. rewrite in_without in Hn.
    destruct (Nat.eq_dec y x) as [->|Dy]; [auto|].
    assert (Hyi : ~ In y (seqs A i)) by tauto.
    destruct (Off y Hyi) as [-> ->].
    apply (R_loose _ _ H); auto. intros [j K]. destruct (Nat.eq_dec j i) as [->|Dj]; [tauto|].
    eapply Hj; eauto.
Qed.

Lemma R_ext w A A' : R w A -> (forall i, seqs A i = seqs A' i) -> (forall x, value A x = value A' x) -> R w A'.
Proof.
  intros H E1 E2.
  assert (Ee : forall x, exists_node A x <-> exists_node A' x) by (intros x; unfold exists_node; now rewrite E2).
  assert (Ea : forall x, attached A x <-> attached A' x).
  { intros x. split; intros [i K]; exists i; [rewrite <- E1|rewrite E1]; auto. }
  split.
  - intros x. rewrite <- Ee. apply (R_alive _ _ H).
  - intros x. rewrite <- E2. apply (R_value _ _ H).
  - rewrite <- E2. apply (R_null _ _ H).
  - intros i. rewrite <- E1. apply (R_list _ _ H).
  - intros i. rewrite <- E1. apply (R_num _ _ H).
  - intros i x. rewrite <- E1, <- Ee. apply (R_owned _ _ H).
  - intros i j x. rewrite <- !E1. apply (R_disj _ _ H).
  - intros x. rewrite <- Ee, <- Ea. apply (R_loose _ _ H).
Qed.

Lemma sim_remove w A i x :
  R w A -> In x (seqs A i) ->
  exists w', remove w i x = Ok (w', 1) /\
    R w' (Abs (fupd (seqs A) i (without x (seqs A i))) (fupd (value A) x None)) /\
    (forall j, j <> i -> lists w' j = lists w j).
Proof.
  intros H Hi. destruct (sim_detach _ _ _ _ H Hi) as (w1 & E1 & H1 & F1).
  unfold remove. rewrite E1. cbn [bind Nat.eqb].
  destruct (R_delete _ _ x H1) as (w2 & E2 & H2 & F2).
  - apply (R_owned _ _ H i x Hi).
  - intros [j K]. cbn in K. destruct (Nat.eq_dec j i) as [->|D].
    + rewrite fupd_same, in_without in K. tauto.
    + rewrite fupd_other in K by auto. apply D. now apply (R_disj _ _ H j i x).
  - rewrite E2. cbn [bind]. eexists; split; [reflexivity|]. split; auto. intros j D. rewrite F2. auto.
Qed.

Lemma drop_all_in xs (f : nat -> option V) x : In x xs -> drop_all xs f x = None.
Proof.
  intros H. unfold drop_all. destruct (existsb (Nat.eqb x) xs) eqn:E; auto.
  rewrite <- not_true_iff_false, existsb_exists in E. destruct E. exists x. now rewrite Nat.eqb_refl.
Qed.
Lemma drop_all_notin xs (f : nat -> option V) x : ~ In x xs -> drop_all xs f x = f x.
Proof.
  intros H. unfold drop_all. destruct (existsb (Nat.eqb x) xs) eqn:E; auto.
  rewrite existsb_exists in E. destruct E as (y & Hy & E). apply Nat.eqb_eq in E. subst. tauto.
Qed.

Lemma sim_empty_loop n : forall w A i, R w A -> length (seqs A i) = n ->
  exists w', empty_loop n w i = Ok w' /\
    R w' (Abs (fupd (seqs A) i []) (drop_all (seqs A i) (value A))) /\
    (forall j, j <> i -> lists w' j = lists w j).
Proof.
  induction n as [|n IH]; intros w A i H Hn.
  - destruct (seqs A i) as [|x r] eqn:E; [|discriminate].
    pose proof (R_list _ _ H i) as (_ & _ & Hh & _). rewrite E in Hh. cbn in Hh.
    cbn [empty_loop]. rewrite Hh, Nat.eqb_refl. exists w; split; auto. split; auto.
    apply R_ext with A; auto. intros j. cbn. destruct (Nat.eq_dec j i) as [->|D]; fu; auto.
  - destruct (seqs A i) as [|x r] eqn:E; [discriminate|].
    pose proof (R_list _ _ H i) as (Nd & Z & Hh & _). rewrite E in Hh. cbn in Hh.
    rewrite E in Nd, Z. cbn [empty_loop]. rewrite Hh.
    rewrite (eqb_0 x) by (intros ->; apply Z; now left).
    assert (Hi : In x (seqs A i)) by (rewrite E; now left).
    destruct (sim_remove _ _ _ _ H Hi) as (w1 & E1 & H1 & F1).
    rewrite E1. cbn [bind].
    apply NoDup_cons_iff in Nd as [Nx Nd].
    assert (Ew : without x (seqs A i) = r) by (rewrite E; apply (without_mid x [] r); auto).
    destruct (IH _ _ i H1) as (w2 & E2 & H2 & F2).
    { cbn. rewrite fupd_same, Ew. now injection Hn. }
    exists w2; split; auto. split; [|intros j D; rewrite F2, F1; auto].
    apply R_ext with (1 := H2); cbn.
    + intros j. destruct (Nat.eq_dec j i) as [->|D]; fu; auto; now rewrite ?fupd_other.
    + intros y. rewrite fupd_same, Ew.
      destruct (Nat.eq_dec y x) as [->|Dy].
      * rewrite (drop_all_in (x :: r)) by now left.
        destruct (in_dec Nat.eq_dec x r); [now rewrite drop_all_in|]. rewrite drop_all_notin by auto. apply fupd_same.
      * destruct (in_dec Nat.eq_dec y r) as [K|K].
        -- now rewrite !drop_all_in by (auto; now right).
        -- rewrite !drop_all_notin; auto. 2: intros [->|?]; auto. now apply fupd_other.
Qed.

Lemma sim_empty w A i : R w A ->
  exists w', empty w i = Ok w' /\
    R w' (Abs (fupd (seqs A) i []) (drop_all (seqs A i) (value A))) /\
    (forall j, j <> i -> lists w' j = lists w j).
Proof.
  intros H. unfold empty. rewrite (R_num _ _ H), Nnat.Nat2N.id.
  destruct (sim_empty_loop _ _ _ i H eq_refl) as (w1 & E1 & H1 & F1).
  rewrite E1. cbn [bind]. eexists; split; [reflexivity|]. split.
  - pose proof (R_num _ _ H1 i) as Hn. cbn in Hn. rewrite fupd_same in Hn. cbn in Hn.
    rewrite <- Hn.
    destruct H1 as [h1 h2 h3 h4 h5 h6 h7 h8]. split; cbn in *; auto.
    + intros j. specialize (h4 j). destruct (Nat.eq_dec j i) as [->|D]; fu; auto;
      now rewrite ?fupd_other by auto.
    + intros j. specialize (h5 j). destruct (Nat.eq_dec j i) as [->|D]; fu; auto.
  - intros j D. cbn. rewrite fupd_other by auto. auto.
Qed.

Lemma NoDup_app_intro {T} (l r : list T) : NoDup l -> NoDup r -> (forall x, In x l -> In x r -> False) -> NoDup (l ++ r).
Proof.
  induction l as [|y l IH]; cbn; intros Hl Hr D; auto.
  apply NoDup_cons_iff in Hl as [a b]. constructor.
  - rewrite in_app_iff. intros [K|K]; [tauto|]. eapply D; eauto.
  - apply IH; auto. intros x K1 K2. eapply D; eauto.
Qed.

Lemma dlist_append L L' E1 E2 xs ys :
  dlist L E1 xs -> dlist L E2 ys -> xs <> [] -> ys <> [] ->
  (forall x, In x xs -> In x ys -> False) ->
  L' = Links (fupd (nx L) (tl_ E1) (hd_ E2)) (fupd (pv L) (hd_ E2) (tl_ E1)) ->
  dlist L' (Ends (hd_ E1) (tl_ E2)) (xs ++ ys).
Proof.
  intros (Nd1 & Z1 & Hh1 & Ht1 & S1) (Nd2 & Z2 & Hh2 & Ht2 & S2) Nx Ny Dj ->.
  destruct ys as [|b ys]; [congruence|]. cbn [hd] in Hh2.
  assert (Hl : In (last xs 0) xs) by now apply last_in.
  split; [now apply NoDup_app_intro|]. split; [rewrite in_app_iff; tauto|]. cbn [hd_ tl_].
  split; [rewrite Hh1; destruct xs; [congruence|auto]|].
  split; [rewrite Ht2, last_app_cons; apply last_cons_d|].
  apply seg_app. cbn [hd]. split.
  - apply seg_set_last with L 0; auto; cbn [nx pv].
    + intros x Hx. apply fupd_other. rewrite Hh2. intros ->. apply (Dj b); auto. now left.
    + intros x Hx D. rewrite fupd_other; auto. congruence.
    + intros _. rewrite Ht1, fupd_same. congruence.
  - apply seg_set_first with L 0; auto; cbn [nx pv].
    + intros y Hy. apply fupd_other. rewrite Ht1. intros ->. apply (Dj (last xs 0)); auto.
    + intros y Hy. apply fupd_other. rewrite Hh2. intros ->. apply NoDup_cons_iff in Nd2 as [K _]. auto.
    + rewrite Hh2, fupd_same. rewrite Ht1. reflexivity.
Qed.

Lemma sim_append w A i j : R w A -> i <> j ->
  exists w', detach_all_and_append w i j = Ok w' /\
    R w' (Abs (fupd (fupd (seqs A) i (seqs A i ++ seqs A j)) j []) (value A)).
Proof.
  intros H Dij. pose proof (R_list _ _ H i) as Di. pose proof (R_list _ _ H j) as Dj.
  unfold detach_all_and_append.
  destruct (dlist_end _ _ _ Dj) as [(Ej & Hj & Tj)|(Nj & Hj & Tj)].
  - rewrite Hj, Nat.eqb_refl. eexists; split; [reflexivity|]. apply R_ext with A; auto.
    cbn. intros k. rewrite Ej, app_nil_r. destruct (Nat.eq_dec k j) as [->|D1]; fu; auto;
    rewrite ?fupd_other by auto. destruct (Nat.eq_dec k i) as [->|D2]; fu; auto; now rewrite ?fupd_other.
  - rewrite (eqb_0 _ Hj).
    set (LE := if Nat.eqb (tl_ (ends_ (lists w i))) 0 then (lnk w, ends_ (lists w j))
      else (Links (fupd (nx (lnk w)) (tl_ (ends_ (lists w i))) (hd_ (ends_ (lists w j))))
                  (fupd (pv (lnk w)) (hd_ (ends_ (lists w j))) (tl_ (ends_ (lists w i)))),
            Ends (hd_ (ends_ (lists w i))) (tl_ (ends_ (lists w j))))).
    assert (Dis : forall x, In x (seqs A i) -> In x (seqs A j) -> False).
    { intros x H1 H2. apply Dij. now apply (R_disj _ _ H i j x). }
    assert (HD : dlist (fst LE) (snd LE) (seqs A i ++ seqs A j) /\
       same_off (seqs A i ++ seqs A j) (lnk w) (fst LE)).
    { unfold LE. destruct (dlist_end _ _ _ Di) as [(Ei & Hi & Ti)|(Ni & Hi & Ti)].
      - rewrite Ti. cbn [Nat.eqb fst snd]. rewrite Ei. split; auto. intros y _; auto.
      - rewrite (eqb_0 _ Ti). cbn [fst snd]. split; [eapply dlist_append; eauto|].
        intros y Hy. rewrite in_app_iff in Hy. cbn. rewrite !fupd_other; auto.
        + intros ->. apply Hy. right. destruct Dj as (_ & _ & -> & _). destruct (seqs A j); [congruence|now left].
        + intros ->. apply Hy. left. destruct Di as (_ & _ & _ & -> & _). now apply last_in. }
    assert (Ex : exists w1, (if negb (Nat.eqb (tl_ (ends_ (lists w i))) 0) then
      let* nx1 := setf (alive w) (nx (lnk w)) (tl_ (ends_ (lists w i))) (hd_ (ends_ (lists w j))) in
      let* pv1 := setf (alive w) (pv (lnk w)) (hd_ (ends_ (lists w j))) (tl_ (ends_ (lists w i))) in
      Ok (set_list (set_links w (Links nx1 pv1)) i
            (Lst (Ends (hd_ (ends_ (lists w i))) (tl_ (ends_ (lists w j)))) (num (lists w i))))
      else Ok (set_list w i (Lst (ends_ (lists w j)) (num (lists w i))))) = Ok w1
      /\ w1 = World (alive w) (fst LE) (vl w) (fupd (lists w) i (Lst (snd LE) (num (lists w i))))).
    { unfold LE. destruct (dlist_end _ _ _ Di) as [(Ei & Hi & Ti)|(Ni & Hi & Ti)].
      - rewrite Ti. cbn. eexists; split; reflexivity.
      - rewrite (eqb_0 _ Ti). cbn [negb].
        assert (alive w (tl_ (ends_ (lists w i))) = true).
        { apply (R_alive_in w A i); auto. destruct Di as (_ & _ & _ & -> & _). now apply last_in. }
        assert (alive w (hd_ (ends_ (lists w j))) = true).
        { apply (R_alive_in w A j); auto. destruct Dj as (_ & _ & -> & _). destruct (seqs A j); [congruence|now left]. }
        heap. eexists; split; reflexivity. }
    destruct Ex as (w1 & E1 & Ew1). rewrite E1. cbn [bind]. rewrite Ew1.
    unfold set_list; cbn [alive lnk vl lists].
    rewrite fupd_same, (fupd_other _ i _ j) by auto. cbn [ends_ num].
    eexists; split; [reflexivity|].
    destruct LE as [L' E']. cbn [fst snd] in HD |- *. destruct HD as [HD Off].
    split; cbn [alive lnk vl lists seqs value].
    + apply (R_alive _ _ H).
    + apply (R_value _ _ H).
    + apply (R_null _ _ H).
    + intros k. destruct (Nat.eq_dec k j) as [->|D1]; [rewrite !fupd_same|].
      { repeat split; auto; constructor. }
      rewrite !(fupd_other _ j) by auto.
      destruct (Nat.eq_dec k i) as [->|D2]; [now rewrite !fupd_same|].
      rewrite !fupd_other by auto. apply dlist_frame with (lnk w); [|apply (R_list _ _ H)].
      intros x Hx. apply Off. rewrite in_app_iff. intros [K|K].
      * apply D2. now apply (R_disj _ _ H k i x).
      * apply D1. now apply (R_disj _ _ H k j x).
    + intros k. destruct (Nat.eq_dec k j) as [->|D1]; [now rewrite !fupd_same|].
      rewrite !(fupd_other _ j) by auto.
      destruct (Nat.eq_dec k i) as [->|D2]; [rewrite !fupd_same|].
      { cbn [num]. rewrite !(R_num _ _ H), app_length. lia. }
      rewrite !fupd_other by auto. apply (R_num _ _ H).
    + intros k x. unfold exists_node; cbn.
      destruct (Nat.eq_dec k j) as [->|D1]; [rewrite fupd_same; intros []|].
      rewrite (fupd_other _ j) by auto.
      destruct (Nat.eq_dec k i) as [->|D2]; [rewrite fupd_same, in_app_iff|rewrite fupd_other by auto].
      * intros [K|K]; eapply R_owned; eauto.
      * intros K; eapply R_owned; eauto.
    + intros k m x.
      assert (G : forall k, In x (fupd (fupd (seqs A) i (seqs A i ++ seqs A j)) j [] k) ->
        k <> j /\ (In x (seqs A k) \/ k = i /\ In x (seqs A j))).
      { clear k m. intros k. destruct (Nat.eq_dec k j) as [->|D1]; [rewrite fupd_same; intros []|].
        rewrite (fupd_other _ j) by auto.
        destruct (Nat.eq_dec k i) as [->|D2]; [rewrite fupd_same, in_app_iff|rewrite fupd_other by auto]; tauto. }
      intros K1 K2. apply G in K1 as [n1 K1]. apply G in K2 as [n2 K2].
      destruct K1 as [K1|[-> K1]]; destruct K2 as [K2|[-> K2]]; auto.
      * now apply (R_disj _ _ H _ _ x).
      * exfalso. apply n1. now apply (R_disj _ _ H _ _ x).
      * exfalso. apply n2. now apply (R_disj _ _ H _ _ x).
    + intros x Hx Hb.
      assert (Hb' : ~ attached A x).
      { intros [k K]. apply Hb. destruct (Nat.eq_dec k j) as [->|D1].
        - exists i. cbn. rewrite fupd_other, fupd_same by auto. apply in_or_app; auto.
        - exists k. cbn. rewrite fupd_other by auto.
          destruct (Nat.eq_dec k i) as [->|D2]; [rewrite fupd_same; apply in_or_app; auto|now rewrite fupd_other]. }
      destruct (Off x) as [-> ->]; [|apply (R_loose _ _ H); auto].
      rewrite in_app_iff. intros [K|K]; apply Hb'; eexists; eauto.
Qed.

Lemma give_other fresh vs (f : nat -> option V) x : ~ In x fresh -> give fresh vs f x = f x.
Proof.
  revert vs f; induction fresh as [|a fr IH]; intros [|v vs] f H; cbn; auto.
  rewrite IH by (intros K; apply H; now right). apply fupd_other. intros ->; apply H; now left.
Qed.

Lemma sim_copy_loop j : forall todo w A i fresh done,
  R w A -> i <> j -> seqs A j = done ++ todo -> length fresh = length todo -> NoDup fresh ->
  (forall x, In x fresh -> x <> 0 /\ value A x = None) ->
  exists w', copy_loop w i (hd 0 todo) fresh = Ok w' /\
    R w' (Abs (fupd (seqs A) i (seqs A i ++ fresh)) (give fresh (map (value A) todo) (value A))).
Proof.
  induction todo as [|p todo IH]; intros w A i fresh done H Dij Ej Hl Nd Hf.
  - destruct fresh; [|discriminate]. cbn. eexists; split; [reflexivity|].
    apply R_ext with A; auto. cbn. intros k. rewrite app_nil_r.
    destruct (Nat.eq_dec k i) as [->|D]; fu; auto; now rewrite ?fupd_other.
  - destruct fresh as [|a fr]; [discriminate|]. cbn [hd].
    assert (Ip : In p (seqs A j)) by (rewrite Ej; apply in_or_app; right; now left).
    assert (Hp : exists_node A p) by (eapply R_owned; eauto).
    cbn [copy_loop]. rewrite (eqb_0 p) by (eapply node_ne0; eauto).
    rewrite getf_Ok by now apply (R_alive _ _ H). cbn [bind].
    rewrite (R_value _ _ H). destruct (value A p) as [v|] eqn:Ev; [|now destruct Hp].
    unfold insert_before_value.
    assert (Fa : free_address A a) by (apply Hf; now left).
    destruct (R_new _ _ v a H Fa) as (w1 & E1 & H1 & F1). rewrite E1. cbn [bind].
    assert (Na : forall k, ~ In a (seqs A k)).
    { intros k K. apply (R_owned _ _ H) in K. now apply K, Fa. }
    destruct (sim_attach_before _ _ i 0 a H1) as (w2 & E2 & H2 & F2).
    { unfold exists_node; cbn. rewrite fupd_same. discriminate. }
    { intros [k K]. now apply (Na k). }
    { now left. }
    rewrite E2. cbn [bind]. cbn [seqs value] in H2.
    rewrite put_before_end in H2 by apply (R_list _ _ H i).
    pose proof (R_list _ _ H2 j) as Dj. cbn [seqs] in Dj. rewrite fupd_other in Dj by auto.
    rewrite Ej in Dj. destruct Dj as (_ & _ & _ & _ & Sj).
    destruct (seg_last_pv _ _ _ _ Sj done p todo eq_refl) as [Hn _].
    assert (Ap : alive w2 p = true).
    { apply (R_alive _ _ H2). unfold exists_node; cbn.
      destruct (Nat.eq_dec p a) as [->|D]; [rewrite fupd_same; discriminate|rewrite fupd_other by auto; congruence]. }
    unfold next_of. rewrite getf_Ok by auto. cbn [bind]. rewrite Hn.
    apply NoDup_cons_iff in Nd as [Nf Nd].
    destruct (IH w2 _ i fr (done ++ [p]) H2 Dij) as (w3 & E3 & H3); auto.
    { cbn. rewrite fupd_other by auto. rewrite Ej, <- app_assoc. reflexivity. }
    { intros x Hx. cbn. destruct (Hf x) as [a1 a2]; [now right|]. split; auto.
      rewrite fupd_other; auto. intros ->; auto. }
    cbn [value seqs] in E3, H3. exists w3; split; auto.
    apply R_ext with (1 := H3); cbn [seqs value].
    + intros k. destruct (Nat.eq_dec k i) as [->|D].
      * rewrite !fupd_same. now rewrite <- app_assoc.
      * now rewrite !fupd_other by auto.
    + intros x. cbn [map give].
      replace (map (fupd (value A) a (Some v)) todo) with (map (value A) todo).
      * now rewrite Ev.
      * apply map_ext_in. intros y Hy. symmetry. apply fupd_other. intros ->.
        apply (Na j). rewrite Ej. apply in_or_app; right; now right.
Qed.

Lemma sim_step w A c A' r : R w A -> astep A c A' r -> exists w', exec w c = Ok (w', r) /\ R w' A'.
Proof.
  intros H St. destruct St; cbn [exec].
  - destruct (R_new _ _ v a H H0) as (w1 & E1 & H1 & _). rewrite E1. cbn. eauto.
  - destruct (R_delete _ _ x H H0 H1) as (w1 & E1 & H2 & _). rewrite E1. cbn. eauto.
  - unfold insert_before_value.
    destruct (R_new _ _ v a H H0) as (w1 & E1 & H2 & F1). rewrite E1. cbn [bind].
    destruct (sim_attach_before _ _ i pos a H2) as (w2 & E2 & H3 & F2); eauto.
    { unfold exists_node; cbn. rewrite fupd_same. discriminate. }
    { intros [k K]. cbn in K. apply (R_owned _ _ H) in K. now apply K, H0. }
  - unfold insert_before, next_of, prev_of. rewrite !getf_Ok by now apply (R_alive _ _ H).
    destruct (R_loose _ _ H _ H0 H1) as [-> ->]. cbn.
    destruct (sim_attach_before _ _ i pos x H) as (w2 & E2 & H3 & F2); eauto.
  - unfold insert_before, next_of, prev_of.
    rewrite !getf_Ok by (eapply R_alive_in; eauto). cbn [bind].
    pose proof (R_list _ _ H j) as D. pose proof H0 as Hin. apply in_split in H0 as (l & r & E).
    rewrite E in D. destruct D as (Nd & Z & _ & _ & S).
    destruct (seg_last_pv _ _ _ _ S l x r eq_refl) as [Hn Hp]. rewrite Hn, Hp.
    destruct r as [|b r]; cbn [hd].
    + cbn. destruct l as [|a l]; [rewrite E in H1; cbn in H1; lia|].
      rewrite eqb_0; [cbn; eauto|]. intros K. apply Z. rewrite <- K.
      apply in_or_app; left. apply last_in. discriminate.
    + rewrite eqb_0; [cbn; eauto|]. intros ->. apply Z. apply in_or_app; right; right; now left.
  - unfold insert_after_value.
    destruct (R_new _ _ v a H H0) as (w1 & E1 & H2 & F1). rewrite E1. cbn [bind].
    destruct (sim_attach_after _ _ i pos a H2) as (w2 & E2 & H3); eauto.
    { unfold exists_node; cbn. rewrite fupd_same. discriminate. }
    { intros [k K]. cbn in K. apply (R_owned _ _ H) in K. now apply K, H0. }
  - unfold insert_after, next_of, prev_of. rewrite !getf_Ok by now apply (R_alive _ _ H).
    destruct (R_loose _ _ H _ H0 H1) as [-> ->]. cbn.
    destruct (sim_attach_after _ _ i pos x H) as (w2 & E2 & H3); eauto.
  - unfold insert_after, next_of, prev_of.
    rewrite !getf_Ok by (eapply R_alive_in; eauto). cbn [bind].
    pose proof (R_list _ _ H j) as D. pose proof H0 as Hin. apply in_split in H0 as (l & r & E).
    rewrite E in D. destruct D as (Nd & Z & _ & _ & S).
    destruct (seg_last_pv _ _ _ _ S l x r eq_refl) as [Hn Hp]. rewrite Hn, Hp.
    destruct r as [|b r]; cbn [hd].
    + cbn. destruct l as [|a l]; [rewrite E in H1; cbn in H1; lia|].
      rewrite eqb_0; [cbn; eauto|]. intros K. apply Z. rewrite <- K.
      apply in_or_app; left. apply last_in. discriminate.
    + rewrite eqb_0; [cbn; eauto|]. intros ->. apply Z. apply in_or_app; right; right; now left.
  - destruct (sim_detach _ _ _ _ H H0) as (w1 & E1 & H1 & _). eauto.
  - cbn. eauto.
  - destruct (sim_remove _ _ _ _ H H0) as (w1 & E1 & H1 & _). eauto.
  - cbn. eauto.
  - pose proof (R_list _ _ H i) as D. destruct D as (Nd & _ & _ & Ht & _).
    rewrite H0, last_snoc in Ht. rewrite H0 in Nd.
    unfold pop. rewrite Ht.
    destruct (sim_detach w A i x H) as (w1 & E1 & H1 & _).
    { rewrite H0. apply in_or_app; right; now left. }
    rewrite E1. cbn [bind]. eexists; split; [reflexivity|].
    rewrite H0 in H1. rewrite without_mid, app_nil_r in H1; auto.
    apply (NoDup_mid _ _ _ Nd).
  - pose proof (R_list _ _ H i) as D. destruct D as (Nd & _ & _ & Ht & _).
    rewrite H0 in Ht. unfold pop. rewrite Ht. cbn. eauto.
  - pose proof (R_list _ _ H i) as D. destruct D as (Nd & _ & Ht & _ & _).
    rewrite H0 in Ht, Nd. cbn in Ht.
    unfold shift. rewrite Ht.
    destruct (sim_detach w A i x H) as (w1 & E1 & H1 & _).
    { rewrite H0. now left. }
    rewrite E1. cbn [bind]. eexists; split; [reflexivity|].
    rewrite H0 in H1. apply NoDup_cons_iff in Nd as [Nx _].
    replace (without x (x :: xs)) with xs in H1; auto. symmetry. now apply (without_mid x [] xs).
  - pose proof (R_list _ _ H i) as D. destruct D as (Nd & _ & Ht & _ & _).
    rewrite H0 in Ht. unfold shift. rewrite Ht. cbn. eauto.
  - destruct (sim_empty _ _ i H) as (w1 & E1 & H1 & _). rewrite E1. cbn. eauto.
  - destruct (sim_append _ _ i j H H0) as (w1 & E1 & H1). rewrite E1. cbn. eauto.
  - unfold assign. apply Nat.eqb_neq in H0 as H0'. rewrite H0'.
    destruct (sim_empty _ _ i H) as (w1 & E1 & H4 & _). rewrite E1. cbn [bind].
    assert (Hh : hd_ (ends_ (lists w1 j)) = hd 0 (seqs A j)).
    { pose proof (R_list _ _ H4 j) as (_ & _ & Hh & _). rewrite Hh. cbn. now rewrite fupd_other by auto. }
    rewrite Hh.
    destruct (sim_copy_loop j (seqs A j) w1 _ i fresh [] H4 H0) as (w2 & E2 & H5); auto.
    { cbn. now rewrite fupd_other by auto. }
    rewrite E2. cbn [bind]. eexists; split; [reflexivity|].
    apply R_ext with (1 := H5); cbn [seqs value].
    + intros k. destruct (Nat.eq_dec k i) as [->|D]; fu; auto; now rewrite ?fupd_other.
    + intros x. f_equal. apply map_ext_in. intros y Hy. apply drop_all_notin. intros K.
      apply H0. now apply (R_disj _ _ H i j y).
  - unfold assign. rewrite Nat.eqb_refl. cbn. eauto.
Qed.

Lemma sim_run cs : forall w A A' rs, R w A -> asteps A cs A' rs ->
  exists w', run w cs = Ok (w', rs) /\ R w' A'.
Proof.
  induction cs as [|c cs IH]; intros w A A' rs H St; inversion St; subst.
  - exists w. auto.
  - match goal with S1 : astep _ _ _ _, S2 : asteps _ _ _ _ |- _ =>
      destruct (sim_step _ _ _ _ _ H S1) as (w1 & E1 & H1);
      match type of S2 with asteps _ cs _ _ => destruct (IH _ _ _ _ H1 S2) as (w2 & E2 & H2) end end.
    cbn. rewrite E1. cbn. rewrite E2. cbn. eauto.
Qed.

(** Observation. *)
Lemma walk_seg step n d : forall xs, (forall l x r, xs = l ++ x :: r -> step x = Ok (hd 0 r)) ->
  ~ In 0 xs -> length xs <= n -> d = hd 0 xs -> walk step n d = Ok xs.
Proof.
  revert d; induction n as [|n IH]; intros d [|x xs] Hs Z Hn ->; cbn in Hn; cbn [walk hd];
    try reflexivity; try lia.
  rewrite (eqb_0 x) by (intros ->; apply Z; now left).
  rewrite (Hs [] x xs eq_refl). cbn [bind].
  rewrite (IH _ xs); auto; try lia.
  - intros l y r ->. now apply (Hs (x :: l)).
  - intros K; apply Z; now right.
Qed.

Lemma hd_rev (l : list nat) d : hd d (rev l) = last l d.
Proof.
  induction l as [|x l IH]; auto. cbn [rev]. rewrite last_cons_d.
  destruct l as [|y l]; auto. rewrite hd_app. 
  destruct (rev (y :: l)) eqn:E; [apply (f_equal (@length nat)) in E; rewrite rev_length in E; discriminate|].
  cbn [hd]. cbn [hd] in IH. rewrite IH. rewrite !last_cons_d. reflexivity.
Qed.

Lemma observe w A i n : R w A -> length (seqs A i) <= n ->
  walk_forward w i n = Ok (seqs A i) /\ walk_backward w i n = Ok (rev (seqs A i)).
Proof.
  intros H Hn. pose proof (R_list _ _ H i) as (Nd & Z & Hh & Ht & S). split.
  - apply walk_seg; auto. intros l x r E. unfold next_of. rewrite getf_Ok.
    + f_equal. now apply (seg_last_pv _ _ _ _ S l x r).
    + apply (R_alive_in w A i); auto. rewrite E. apply in_or_app; right; now left.
  - apply walk_seg.
    + intros l x r E. apply (f_equal (@rev nat)) in E. rewrite rev_involutive, rev_app_distr in E. cbn in E.
      rewrite <- app_assoc in E. cbn in E. unfold prev_of. rewrite getf_Ok.
      * f_equal. rewrite (proj2 (seg_last_pv _ _ _ _ S _ x _ E)). rewrite <- hd_rev, rev_involutive. reflexivity.
      * apply (R_alive_in w A i); auto. rewrite E. apply in_or_app; right; now left.
    + now rewrite <- in_rev.
    + now rewrite rev_length.
    + rewrite Ht, hd_rev. reflexivity.
Qed.
End P.
