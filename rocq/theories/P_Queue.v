(** The queue model refines the sequence specification. *)
From Verif Require Import Base S_Seq S_Queue M_Dll M_Queue P_Dll P_List.

Section P.
Context {V : Type}.
Implicit Types (w : qworld V) (A : abs V).

(** Each node of [xs] links to the following one, the last to NULL. *)
Definition chain (f : nat -> nat) (xs : list nat) : Prop :=
  forall l x r, xs = l ++ x :: r -> f x = hd 0 r.

Definition sq (f : nat -> nat) (q : queue) (xs : list nat) : Prop :=
  NoDup xs /\ ~ In 0 xs /\ qhd q = hd 0 xs /\ qtl q = last xs 0 /\
  qnum q = N.of_nat (length xs) /\ chain f xs.

Record QR w A : Prop := mkQR {
  Q_alive : forall x, qalive w x = true <-> exists_node A x;
  Q_value : forall x, qvl w x = value A x;
  Q_null : value A 0 = None;
  Q_queue : forall i, sq (qnx w) (queues w i) (seqs A i);
  Q_owned : forall i x, In x (seqs A i) -> exists_node A x;
  Q_disj : forall i j x, In x (seqs A i) -> In x (seqs A j) -> i = j;
  Q_loose : forall x, exists_node A x -> ~ attached A x -> qnx w x = 0 }.

Lemma chain_frame f g xs : (forall x, In x xs -> g x = f x) -> chain f xs -> chain g xs.
Proof. intros H C l x r E. rewrite H; [now apply (C l)|]. rewrite E. apply in_or_app; right; now left. Qed.

Lemma sq_frame f g q xs : (forall x, In x xs -> g x = f x) -> sq f q xs -> sq g q xs.
Proof. intros H (a & b & c & d & e & h). repeat split; auto. now apply chain_frame with f. Qed.

Lemma QR_init : QR qinit start.
Proof.
  split; cbn; auto; try tauto.
  - intros x. unfold exists_node. cbn. split; congruence.
  - intros i. repeat split; auto; [constructor|]. intros [|? ?] ? ? E; discriminate.
Qed.

Lemma Q_alive_in w A i x : QR w A -> In x (seqs A i) -> qalive w x = true.
Proof. intros H Hi. apply (Q_alive _ _ H). eapply Q_owned; eauto. Qed.
Lemma qnode_ne0 w A x : QR w A -> exists_node A x -> x <> 0.
Proof. intros H Hx ->. apply Hx. apply (Q_null _ _ H). Qed.

Lemma QR_ext w A A' : QR w A -> (forall i, seqs A i = seqs A' i) -> (forall x, value A x = value A' x) -> QR w A'.
Proof.
  intros H E1 E2.
  assert (Ee : forall x, exists_node A x <-> exists_node A' x) by (intros x; unfold exists_node; now rewrite E2).
  assert (Ea : forall x, attached A x <-> attached A' x).
  { intros x. split; intros [i K]; exists i; [rewrite <- E1|rewrite E1]; auto. }
  split.
  - intros x. rewrite <- Ee. apply (Q_alive _ _ H).
  - intros x. rewrite <- E2. apply (Q_value _ _ H).
  - rewrite <- E2. apply (Q_null _ _ H).
  - intros i. rewrite <- E1. apply (Q_queue _ _ H).
  - intros i x. rewrite <- E1, <- Ee. apply (Q_owned _ _ H).
  - intros i j x. rewrite <- !E1. apply (Q_disj _ _ H).
  - intros x. rewrite <- Ee, <- Ea. apply (Q_loose _ _ H).
Qed.

Lemma sq_end f q xs : sq f q xs -> xs = [] /\ qhd q = 0 /\ qtl q = 0 \/
  xs <> [] /\ qhd q <> 0 /\ qtl q <> 0 /\ In (qtl q) xs /\ In (qhd q) xs.
Proof.
  intros (_ & b & c & d & _). destruct xs as [|x r]; [left; auto|]. right.
  assert (In (qtl q) (x :: r)) by (rewrite d; now apply last_in).
  assert (In (qhd q) (x :: r)) by (rewrite c; now left).
  split; [discriminate|]. repeat split; auto; intros K; apply b; rewrite <- K; auto.
Qed.

(** One queue changed, the others framed; allocation unchanged. *)
Lemma QR_change w A i f' q' xs' :
  QR w A -> sq f' q' xs' ->
  (forall j x, j <> i -> In x (seqs A j) -> f' x = qnx w x /\ ~ In x xs') ->
  (forall x, In x xs' -> exists_node A x) ->
  (forall x, exists_node A x -> ~ In x xs' -> (forall j, j <> i -> ~ In x (seqs A j)) -> f' x = 0) ->
  QR (set_queue (set_qnx w f') i q') (Abs (fupd (seqs A) i xs') (value A)).
Proof.
  intros H Hd Ho Hin Hl. split; cbn [qalive qnx qvl queues seqs value set_queue set_qnx].
  - apply (Q_alive _ _ H).
  - apply (Q_value _ _ H).
  - apply (Q_null _ _ H).
  - intros j. destruct (Nat.eq_dec j i) as [->|D].
    + rewrite !fupd_same. exact Hd.
    + rewrite !fupd_other by auto. apply sq_frame with (qnx w); [|apply (Q_queue _ _ H)].
      intros x Hx. now apply (Ho j).
  - intros j x. unfold exists_node; cbn. destruct (Nat.eq_dec j i) as [->|D].
    + rewrite fupd_same. apply Hin.
    + rewrite fupd_other by auto. intros Hx. eapply Q_owned; eauto.
  - intros j k x.
    destruct (Nat.eq_dec j i) as [->|D]; destruct (Nat.eq_dec k i) as [->|D2]; auto.
    + rewrite fupd_same, fupd_other by auto. intros H1 H2. destruct (Ho k x D2 H2). tauto.
    + rewrite fupd_same, fupd_other by auto. intros H1 H2. destruct (Ho j x D H1). tauto.
    + rewrite !fupd_other by auto. apply (Q_disj _ _ H).
  - intros x Hx Ha. apply Hl; auto.
    + intros K. apply Ha. exists i. cbn. now rewrite fupd_same.
    + intros j D K. apply Ha. exists j. cbn. now rewrite fupd_other.
Qed.

Lemma QR_new w A v a : QR w A -> free_address A a ->
  exists w', qnew w (Some v) a = Ok w' /\ QR w' (Abs (seqs A) (fupd (value A) a (Some v))).
Proof.
  intros H [F0 F1]. unfold qnew.
  assert (qalive w a = false) as Hal.
  { destruct (qalive w a) eqn:E; auto. apply (Q_alive _ _ H) in E. destruct (E F1). }
  rewrite (eqb_0 _ F0), Hal. cbn [orb].
  eexists; split; [reflexivity|].
  assert (Hna : forall i, ~ In a (seqs A i)).
  { intros i K. apply (Q_owned _ _ H) in K. auto. }
  split; cbn [qalive qnx qvl queues seqs value].
  - intros x. unfold exists_node; cbn. destruct (Nat.eq_dec x a) as [->|D].
    + rewrite !fupd_same. split; congruence.
    + rewrite !fupd_other by auto. apply (Q_alive _ _ H).
  - intros x. destruct (Nat.eq_dec x a) as [->|D]; [now rewrite !fupd_same|].
    rewrite !fupd_other by auto; apply (Q_value _ _ H).
  - rewrite fupd_other by auto. apply (Q_null _ _ H).
  - intros i. apply sq_frame with (qnx w); [|apply (Q_queue _ _ H)].
    intros x Hx. cbn. rewrite fupd_other; auto; intros ->; eapply Hna; eauto.
  - intros i x Hx. unfold exists_node; cbn. destruct (Nat.eq_dec x a) as [->|D].
    + rewrite fupd_same; congruence.
    + rewrite fupd_other by auto. eapply Q_owned; eauto.
  - apply (Q_disj _ _ H).
  - intros x Hx Ha. cbn. destruct (Nat.eq_dec x a) as [->|D]; [now rewrite fupd_same|].
    rewrite fupd_other by auto. apply (Q_loose _ _ H).
    + unfold exists_node in *; cbn in Hx. now rewrite fupd_other in Hx by auto.
    + exact Ha.
Qed.

Lemma QR_delete w A x : QR w A -> exists_node A x -> ~ attached A x ->
  exists w', qdelete w x = Ok w' /\ QR w' (Abs (seqs A) (fupd (value A) x None)).
Proof.
  intros H Hx Ha. unfold qdelete. rewrite (proj2 (Q_alive _ _ H x) Hx).
  eexists; split; [reflexivity|].
  split; cbn [qalive qnx qvl queues seqs value].
  - intros y. unfold exists_node; cbn. destruct (Nat.eq_dec y x) as [->|D].
    + rewrite !fupd_same. split; congruence.
    + rewrite !fupd_other by auto. apply (Q_alive _ _ H).
  - intros y. destruct (Nat.eq_dec y x) as [->|D]; [now rewrite !fupd_same|].
    rewrite !fupd_other by auto; apply (Q_value _ _ H).
  - destruct (Nat.eq_dec 0 x) as [<-|D]; [now rewrite fupd_same|]. rewrite fupd_other by auto. apply (Q_null _ _ H).
  - apply (Q_queue _ _ H).
  - intros i y Hy. unfold exists_node; cbn. rewrite fupd_other; [eapply Q_owned; eauto|].
    intros ->. apply Ha. now exists i.
  - apply (Q_disj _ _ H).
  - intros y Hy Hb. apply (Q_loose _ _ H); auto.
    unfold exists_node in *; cbn in Hy. destruct (Nat.eq_dec y x) as [->|D]; auto.
    now rewrite fupd_other in Hy by auto.
Qed.

Lemma chain_app f xs ys n : chain f xs -> chain f ys -> NoDup xs -> xs <> [] ->
  (forall x, In x ys -> ~ In x xs) -> n = hd 0 ys -> chain (fupd f (last xs 0) n) (xs ++ ys).
Proof.
  intros C1 C2 Nd Ne Dj -> l x r E.
  assert (Ll : In (last xs 0) xs) by now apply last_in.
  assert (Ix : In x xs \/ In x ys).
  { apply in_app_or. rewrite E. apply in_or_app; right; now left. }
  destruct (Nat.eq_dec x (last xs 0)) as [Ex|Dx].
  - rewrite <- Ex, fupd_same.
    destruct (exists_last Ne) as (xs1 & z & ->). rewrite last_snoc in Ex. subst z.
    rewrite <- app_assoc in E. cbn in E.
    assert (Nd' : NoDup (xs1 ++ x :: ys) \/ True) by now right.
    assert (l = xs1 /\ r = ys) as [_ ->]; [|reflexivity].
    apply NoDup_remove_2 in Nd. rewrite app_nil_r in Nd.
    assert (Hy : ~ In x ys) by (intros K; apply (Dj x K), in_or_app; right; now left).
    clear - E Nd Hy. revert l E; induction xs1 as [|a xs1 IH]; intros [|b l] E; cbn in E.
    + inversion E; auto.
    + exfalso. injection E as -> ->. apply Hy. apply in_or_app; right; now left.
    + exfalso. injection E as -> E. apply Nd; now left.
    + injection E as -> E. destruct (IH (fun K => Nd (or_intror K)) l E) as [-> ->]; auto.
  - rewrite fupd_other by auto.
    (* split the decomposition *)
    assert (G : (exists r1, xs = l ++ x :: r1 /\ r = r1 ++ ys) \/ (exists l2, l = xs ++ l2 /\ ys = l2 ++ x :: r)).
    { clear - E. revert l E; induction xs as [|a xs IH]; intros l E; cbn in E.
      - right. exists l. auto.
      - destruct l as [|b l]; cbn in E; injection E as -> E.
        + left. exists xs. auto.
        + destruct (IH _ E) as [(r1 & -> & ->)|(l2 & -> & ->)]; [left; exists r1; auto|right; exists l2; auto]. }
    destruct G as [(r1 & E1 & ->)|(l2 & -> & E2)].
    + rewrite (C1 l x r1 E1). destruct r1 as [|b r1]; [|reflexivity].
      exfalso. apply Dx. rewrite E1, last_snoc. reflexivity.
    + now apply (C2 l2).
Qed.

Lemma sim_push w A i x : QR w A -> exists_node A x -> ~ attached A x ->
  exists w', push w i x = Ok (w', x) /\ QR w' (Abs (fupd (seqs A) i (seqs A i ++ [x])) (value A)).
Proof.
  intros H Hx Ha. unfold push, qnext. rewrite getf_Ok by now apply (Q_alive _ _ H).
  cbn [bind]. rewrite (Q_loose _ _ H x Hx Ha). cbn [negb Nat.eqb].
  pose proof (Q_queue _ _ H i) as D. pose proof D as (Nd & Z & Hh & Ht & Hn & C).
  assert (X0 : x <> 0) by (eapply qnode_ne0; eauto).
  assert (Xn : forall j, ~ In x (seqs A j)) by (intros j K; apply Ha; now exists j).
  assert (exists f, (if negb (Nat.eqb (qtl (queues w i)) 0) then setf (qalive w) (qnx w) (qtl (queues w i)) x else Ok (qnx w)) = Ok f
     /\ chain f (seqs A i ++ [x]) /\ (forall y, ~ In y (seqs A i) -> f y = qnx w y)) as (f & Ef & Cf & Of).
  { destruct (sq_end _ _ _ D) as [(E & E1 & E2)|(E & E1 & E2 & I1 & I2)].
    - rewrite E2. cbn. eexists; split; [reflexivity|]. rewrite E. split; auto.
      intros [|a l] y r K; cbn in K; injection K as -> K; subst; cbn; [|destruct l; discriminate].
      now apply (Q_loose _ _ H).
    - rewrite (eqb_0 _ E2). cbn [negb]. rewrite setf_Ok by (eapply Q_alive_in; eauto).
      eexists; split; [reflexivity|]. split.
      + rewrite Ht. apply chain_app; auto.
        * intros [|a l] y r K; cbn in K; injection K as -> K; subst; cbn; [|destruct l; discriminate].
          now apply (Q_loose _ _ H).
        * intros y [<-|[]]. apply Xn.
      + intros y Hy. apply fupd_other. intros ->; auto. }
  rewrite Ef. cbn [bind]. eexists; split; [reflexivity|].
  apply QR_change; auto.
  - split; [|split; [|split; [|split; [|split]]]]; cbn [qhd qtl qnum]; auto.
    + apply NoDup_insert; rewrite app_nil_r; auto.
    + rewrite in_app_iff. cbn. intros [K|[K|[]]]; auto.
    + rewrite Hh. destruct (seqs A i) as [|a s]; [reflexivity|]. cbn. 
      rewrite eqb_0; auto. intros ->; apply Z; now left.
    + now rewrite last_snoc.
    + rewrite Hn, app_length. cbn. lia.
  - intros j y Dj Hj. split.
    + apply Of. intros K. apply Dj. now apply (Q_disj _ _ H j i y).
    + rewrite in_app_iff. cbn. intros [K|[->|[]]]; [apply Dj; now apply (Q_disj _ _ H j i y)|now apply (Xn j)].
  - intros y. rewrite in_app_iff. cbn. intros [K|[->|[]]]; auto. eapply Q_owned; eauto.
  - intros y Hy Hn2 Hj. rewrite in_app_iff in Hn2. rewrite Of by tauto.
    apply (Q_loose _ _ H); auto. intros [j K]. destruct (Nat.eq_dec j i) as [->|Dj]; [tauto|]. eapply Hj; eauto.
Qed.

Lemma chain_cons f x xs : ~ In x xs -> chain f xs -> chain (fupd f x (hd 0 xs)) (x :: xs).
Proof.
  intros Hx C [|a l] y r E; cbn in E; injection E as -> E.
  - subst. now rewrite fupd_same.
  - rewrite fupd_other; [now apply (C l)|]. intros ->. apply Hx. rewrite E. apply in_or_app; right; now left.
Qed.

Lemma sim_unshift w A i x : QR w A -> exists_node A x -> ~ attached A x ->
  exists w', unshift w i x = Ok (w', x) /\ QR w' (Abs (fupd (seqs A) i (x :: seqs A i)) (value A)).
Proof.
  intros H Hx Ha. unfold unshift, qnext. rewrite getf_Ok by now apply (Q_alive _ _ H).
  cbn [bind]. rewrite (Q_loose _ _ H x Hx Ha). cbn [negb Nat.eqb].
  rewrite setf_Ok by now apply (Q_alive _ _ H). cbn [bind].
  pose proof (Q_queue _ _ H i) as D. pose proof D as (Nd & Z & Hh & Ht & Hn & C).
  assert (X0 : x <> 0) by (eapply qnode_ne0; eauto).
  assert (Xn : forall j, ~ In x (seqs A j)) by (intros j K; apply Ha; now exists j).
  eexists; split; [reflexivity|]. apply QR_change; auto.
  - split; [|split; [|split; [|split; [|split]]]]; cbn [qhd qtl qnum]; auto.
    + now constructor.
    + cbn. intros [K|K]; auto.
    + rewrite Ht. destruct (sq_end _ _ _ D) as [(-> & _)|(E & _ & E2 & _)]; [reflexivity|].
      rewrite Ht in E2. rewrite (eqb_0 _ E2). destruct (seqs A i); [congruence|reflexivity].
    + rewrite Hn. cbn [length]. lia.
    + rewrite Hh. now apply chain_cons.
  - intros j y Dj Hj. split.
    + apply fupd_other. intros ->. now apply (Xn j).
    + cbn. intros [->|K]; [now apply (Xn j)|apply Dj; now apply (Q_disj _ _ H j i y)].
  - intros y [->|K]; auto. eapply Q_owned; eauto.
  - intros y Hy Hn2 Hj. cbn in Hn2. rewrite fupd_other by (intros ->; tauto).
    apply (Q_loose _ _ H); auto. intros [j K]. destruct (Nat.eq_dec j i) as [->|Dj]; [tauto|]. eapply Hj; eauto.
Qed.

Lemma sim_qshift w A i x xs : QR w A -> seqs A i = x :: xs ->
  exists w', qshift w i = Ok (w', x) /\ QR w' (Abs (fupd (seqs A) i xs) (value A)).
Proof.
  intros H E. unfold qshift.
  pose proof (Q_queue _ _ H i) as D. pose proof D as (Nd & Z & Hh & Ht & Hn & C).
  assert (Ix : In x (seqs A i)) by (rewrite E; now left).
  assert (Ax : qalive w x = true) by (eapply Q_alive_in; eauto).
  rewrite E in Hh, Ht, Hn, Nd, Z. cbn [hd] in Hh. rewrite Hh.
  rewrite (eqb_0 x) by (intros ->; apply Z; now left).
  unfold qnext. rewrite getf_Ok, setf_Ok by auto. cbn [bind].
  rewrite (C [] x xs E).
  apply NoDup_cons_iff in Nd as [Nx Nd].
  eexists; split; [reflexivity|]. apply QR_change; auto.
  - split; [|split; [|split; [|split; [|split]]]]; cbn [qhd qtl qnum]; auto.
    + intros K; apply Z; now right.
    + destruct xs as [|y ys]; [reflexivity|]. cbn [hd].
      rewrite eqb_0 by (intros ->; apply Z; right; now left). rewrite Ht. reflexivity.
    + rewrite Hn. cbn [length]. lia.
    + apply chain_frame with (qnx w).
      * intros y Hy. apply fupd_other. intros ->; auto.
      * intros l y r E2. apply (C (x :: l)). now rewrite E, E2.
  - intros j y Dj Hj. split.
    + apply fupd_other. intros ->. apply Dj. now apply (Q_disj _ _ H j i x).
    + intros K. apply Dj. apply (Q_disj _ _ H j i y); auto. rewrite E. now right.
  - intros y K. apply (Q_owned _ _ H i). rewrite E. now right.
  - intros y Hy Hn2 Hj. destruct (Nat.eq_dec y x) as [->|Dy]; [apply fupd_same|].
    rewrite fupd_other by auto. apply (Q_loose _ _ H); auto. intros [j K].
    destruct (Nat.eq_dec j i) as [->|Dj]; [|eapply Hj; eauto].
    rewrite E in K. destruct K; auto.
Qed.

Lemma qshift_frame w A i x xs w' : QR w A -> seqs A i = x :: xs -> qshift w i = Ok (w', x) ->
  forall j, j <> i -> queues w' j = queues w j.
Proof.
  intros H E. unfold qshift, qnext, getf, setf.
  destruct (Nat.eqb (qhd (queues w i)) 0); [intros K j _; now injection K as <-|].
  destruct (qalive w (qhd (queues w i))); cbn; [|discriminate].
  intros K j D. injection K as <-. cbn. now rewrite fupd_other.
Qed.

Lemma sim_qempty_loop n : forall w A i, QR w A -> length (seqs A i) = n ->
  exists w', qempty_loop n w i = Ok w' /\
    QR w' (Abs (fupd (seqs A) i []) (drop_all (seqs A i) (value A))).
Proof.
  induction n as [|n IH]; intros w A i H Hn.
  - destruct (seqs A i) as [|x r] eqn:E; [|discriminate].
    pose proof (Q_queue _ _ H i) as (_ & _ & Hh & _). rewrite E in Hh. cbn in Hh.
    cbn [qempty_loop]. rewrite Hh, Nat.eqb_refl. exists w; split; auto.
    apply QR_ext with A; auto. intros j. cbn. destruct (Nat.eq_dec j i) as [->|D].
    + now rewrite fupd_same.
    + now rewrite fupd_other.
  - destruct (seqs A i) as [|x r] eqn:E; [discriminate|].
    pose proof (Q_queue _ _ H i) as (Nd & Z & Hh & _). rewrite E in Hh. cbn in Hh.
    rewrite E in Nd, Z. cbn [qempty_loop]. rewrite Hh.
    rewrite (eqb_0 x) by (intros ->; apply Z; now left).
    destruct (sim_qshift _ _ _ _ _ H E) as (w1 & E1 & H1).
    rewrite E1. cbn [bind].
    apply NoDup_cons_iff in Nd as [Nx Nd].
    destruct (QR_delete _ _ x H1) as (w2 & E2 & H2).
    { apply (Q_owned _ _ H i x). rewrite E; now left. }
    { intros [j K]. cbn in K. destruct (Nat.eq_dec j i) as [->|D].
      - rewrite fupd_same in K. tauto.
      - rewrite fupd_other in K by auto. apply D. apply (Q_disj _ _ H j i x); auto. rewrite E; now left. }
    rewrite E2. cbn [bind].
    destruct (IH _ _ i H2) as (w3 & E3 & H3).
    { cbn. rewrite fupd_same. now injection Hn. }
    exists w3; split; auto.
    apply QR_ext with (1 := H3); cbn.
    + intros j. destruct (Nat.eq_dec j i) as [->|D]; [now rewrite !fupd_same|]. now rewrite !fupd_other.
    + intros y. rewrite fupd_same.
      destruct (Nat.eq_dec y x) as [->|Dy].
      * rewrite (drop_all_in (x :: r)) by now left.
        rewrite drop_all_notin by auto. apply fupd_same.
      * destruct (in_dec Nat.eq_dec y r) as [K|K].
        -- now rewrite !drop_all_in by (auto; now right).
        -- rewrite !drop_all_notin; auto. 2: intros [->|?]; auto. now apply fupd_other.
Qed.

Lemma sim_qempty w A i : QR w A ->
  exists w', qempty w i = Ok w' /\
    QR w' (Abs (fupd (seqs A) i []) (drop_all (seqs A i) (value A))).
Proof.
  intros H. unfold qempty. pose proof (Q_queue _ _ H i) as (_ & _ & _ & _ & -> & _). rewrite Nnat.Nat2N.id.
  destruct (sim_qempty_loop _ _ _ i H eq_refl) as (w1 & E1 & H1).
  rewrite E1. cbn [bind]. eexists; split; [reflexivity|].
  destruct H1 as [h1 h2 h3 h4 h5 h6 h7]. split; auto.
  intros j. specialize (h4 j). cbn [queues seqs set_queue qnx] in *. destruct (Nat.eq_dec j i) as [->|D].
  - rewrite fupd_same in h4. rewrite !fupd_same. destruct h4 as (a & b & c & d & e & g). repeat split; auto.
  - now rewrite (fupd_other (queues w1)) by auto.
Qed.

Lemma sim_qappend w A i j : QR w A -> i <> j ->
  exists w', qappend w i j = Ok w' /\
    QR w' (Abs (fupd (fupd (seqs A) i (seqs A i ++ seqs A j)) j []) (value A)).
Proof.
  intros H Dij. pose proof (Q_queue _ _ H i) as Di. pose proof (Q_queue _ _ H j) as Dj.
  unfold qappend.
  destruct (sq_end _ _ _ Dj) as [(Ej & Hj & Tj)|(Nj & Hj & Tj & I1 & I2)].
  - rewrite Hj, Nat.eqb_refl. eexists; split; [reflexivity|]. apply QR_ext with A; auto.
    cbn. intros k. rewrite Ej, app_nil_r. destruct (Nat.eq_dec k j) as [->|D1]; [now rewrite fupd_same|].
    rewrite fupd_other by auto. destruct (Nat.eq_dec k i) as [->|D2]; [now rewrite fupd_same|]. now rewrite fupd_other.
  - rewrite (eqb_0 _ Hj).
    assert (Dis : forall x, In x (seqs A i) -> In x (seqs A j) -> False).
    { intros x H1 H2. apply Dij. now apply (Q_disj _ _ H i j x). }
    pose proof Di as (Nd1 & Z1 & Hh1 & Ht1 & Hn1 & C1).
    pose proof Dj as (Nd2 & Z2 & Hh2 & Ht2 & Hn2 & C2).
    set (qi := queues w i) in *. set (qj := queues w j) in *.
    assert (HX : exists f h, (if negb (Nat.eqb (qtl qi) 0) then
        let* f := setf (qalive w) (qnx w) (qtl qi) (qhd qj) in
        Ok (set_queue (set_qnx w f) i (Queue (qhd qi) (qtl qj) (qnum qi)))
      else Ok (set_queue w i (Queue (qhd qj) (qtl qj) (qnum qi))))
      = Ok (set_queue (set_qnx w f) i (Queue h (qtl qj) (qnum qi)))
      /\ chain f (seqs A i ++ seqs A j) /\ h = hd 0 (seqs A i ++ seqs A j)
      /\ (forall y, ~ In y (seqs A i) -> f y = qnx w y)).
    { destruct (sq_end _ _ _ Di) as [(E & E1 & E2)|(E & E1 & E2 & I3 & I4)].
      - rewrite E2. cbn [negb Nat.eqb]. exists (qnx w), (qhd qj). split; [reflexivity|].
        rewrite E. cbn [app]. repeat split; auto.
      - rewrite (eqb_0 _ E2). cbn [negb]. rewrite setf_Ok by (eapply Q_alive_in; eauto). cbn [bind].
        eexists _, _; split; [reflexivity|]. split; [|split].
        + rewrite Ht1. apply chain_app; auto. intros x K1 K2; eapply Dis; eauto.
        + rewrite Hh1, hd_app. destruct (seqs A i); [congruence|reflexivity].
        + intros y Hy. apply fupd_other. intros ->; auto. }
    destruct HX as (f & h & EX & Cf & Hh & Of). rewrite EX. cbn [bind].
    cbn [queues set_queue set_qnx]. rewrite fupd_same, (fupd_other _ i _ j) by auto.
    cbn [qhd qtl qnum]. fold qj.
    eexists; split; [reflexivity|].
    unfold set_queue, set_qnx; cbn [qalive qnx qvl queues].
    split; cbn [qalive qnx qvl queues seqs value].
    + apply (Q_alive _ _ H).
    + apply (Q_value _ _ H).
    + apply (Q_null _ _ H).
    + intros k. destruct (Nat.eq_dec k j) as [->|D1]; [rewrite !fupd_same|].
      { repeat split; auto; [constructor|]. intros [|? ?] ? ? E; discriminate. }
      rewrite !(fupd_other _ j) by auto.
      destruct (Nat.eq_dec k i) as [->|D2]; [rewrite !fupd_same|].
      { split; [now apply NoDup_app_intro|]. split; [rewrite in_app_iff; tauto|].
        cbn [qhd qtl qnum]. split; auto. split.
        - rewrite Ht2. destruct (seqs A j) as [|b s]; [congruence|]. rewrite last_app_cons. apply last_cons_d.
        - split; auto. rewrite Hn1, Hn2, app_length. lia. }
      rewrite !fupd_other by auto. apply sq_frame with (qnx w); [|apply (Q_queue _ _ H)].
      intros x Hx. apply Of. intros K. apply D2. now apply (Q_disj _ _ H k i x).
    + intros k x. unfold exists_node; cbn.
      destruct (Nat.eq_dec k j) as [->|D1]; [rewrite fupd_same; intros []|].
      rewrite (fupd_other _ j) by auto.
      destruct (Nat.eq_dec k i) as [->|D2]; [rewrite fupd_same, in_app_iff|rewrite fupd_other by auto].
      * intros [K|K]; eapply Q_owned; eauto.
      * intros K; eapply Q_owned; eauto.
    + intros k m x.
      assert (G : forall k, In x (fupd (fupd (seqs A) i (seqs A i ++ seqs A j)) j [] k) ->
        k <> j /\ (In x (seqs A k) \/ k = i /\ In x (seqs A j))).
      { clear k m. intros k. destruct (Nat.eq_dec k j) as [->|D1]; [rewrite fupd_same; intros []|].
        rewrite (fupd_other _ j) by auto.
        destruct (Nat.eq_dec k i) as [->|D2]; [rewrite fupd_same, in_app_iff|rewrite fupd_other by auto]; tauto. }
      intros K1 K2. apply G in K1 as [n1 K1]. apply G in K2 as [n2 K2].
      destruct K1 as [K1|[-> K1]]; destruct K2 as [K2|[-> K2]]; auto.
      * now apply (Q_disj _ _ H _ _ x).
      * exfalso. apply n1. now apply (Q_disj _ _ H _ _ x).
      * exfalso. apply n2. now apply (Q_disj _ _ H _ _ x).
    + intros x Hx Hb.
      assert (Hb' : ~ attached A x).
      { intros [k K]. apply Hb. destruct (Nat.eq_dec k j) as [->|D1].
        - exists i. cbn. rewrite fupd_other, fupd_same by auto. apply in_or_app; auto.
        - exists k. cbn. rewrite fupd_other by auto.
          destruct (Nat.eq_dec k i) as [->|D2]; [rewrite fupd_same; apply in_or_app; auto|now rewrite fupd_other]. }
      rewrite Of; [apply (Q_loose _ _ H); auto|]. intros K; apply Hb'; eexists; eauto.
Qed.

Lemma sim_qcopy_loop j : forall todo w A i fresh done,
  QR w A -> i <> j -> seqs A j = done ++ todo -> length fresh = length todo -> NoDup fresh ->
  (forall x, In x fresh -> x <> 0 /\ value A x = None) ->
  exists w', qcopy_loop w i (hd 0 todo) fresh = Ok w' /\
    QR w' (Abs (fupd (seqs A) i (seqs A i ++ fresh)) (give fresh (map (value A) todo) (value A))).
Proof.
  induction todo as [|p todo IH]; intros w A i fresh done H Dij Ej Hl Nd Hf.
  - destruct fresh; [|discriminate]. cbn. eexists; split; [reflexivity|].
    apply QR_ext with A; auto. cbn. intros k. rewrite app_nil_r.
    destruct (Nat.eq_dec k i) as [->|D]; [now rewrite fupd_same|]. now rewrite fupd_other.
  - destruct fresh as [|a fr]; [discriminate|]. cbn [hd].
    assert (Ip : In p (seqs A j)) by (rewrite Ej; apply in_or_app; right; now left).
    assert (Hp : exists_node A p) by (eapply Q_owned; eauto).
    cbn [qcopy_loop]. rewrite (eqb_0 p) by (eapply qnode_ne0; eauto).
    rewrite getf_Ok by now apply (Q_alive _ _ H). cbn [bind].
    rewrite (Q_value _ _ H). destruct (value A p) as [v|] eqn:Ev; [|now destruct Hp].
    assert (Fa : free_address A a) by (apply Hf; now left).
    destruct (QR_new _ _ v a H Fa) as (w1 & E1 & H1). rewrite E1. cbn [bind].
    assert (Na : forall k, ~ In a (seqs A k)).
    { intros k K. apply (Q_owned _ _ H) in K. now apply K, Fa. }
    destruct (sim_push _ _ i a H1) as (w2 & E2 & H2).
    { unfold exists_node; cbn. rewrite fupd_same. discriminate. }
    { intros [k K]. now apply (Na k). }
    rewrite E2. cbn [bind]. cbn [seqs value] in H2.
    pose proof (Q_queue _ _ H2 j) as Dj. cbn [seqs] in Dj. rewrite fupd_other in Dj by auto.
    destruct Dj as (_ & _ & _ & _ & _ & Cj).
    assert (Ap : qalive w2 p = true).
    { apply (Q_alive _ _ H2). unfold exists_node; cbn.
      destruct (Nat.eq_dec p a) as [->|D]; [rewrite fupd_same; discriminate|rewrite fupd_other by auto; congruence]. }
    unfold qnext. rewrite getf_Ok by auto. cbn [bind]. rewrite (Cj done p todo Ej).
    apply NoDup_cons_iff in Nd as [Nf Nd].
    destruct (IH w2 _ i fr (done ++ [p]) H2 Dij) as (w3 & E3 & H3); auto.
    { cbn. rewrite fupd_other by auto. rewrite Ej, <- app_assoc. reflexivity. }
    { intros x Hx. cbn. destruct (Hf x) as [a1 a2]; [now right|]. split; auto.
      rewrite fupd_other; auto. intros ->; auto. }
    cbn [value seqs] in E3, H3. exists w3; split; auto.
    apply QR_ext with (1 := H3); cbn [seqs value].
    + intros k. destruct (Nat.eq_dec k i) as [->|D].
      * rewrite !fupd_same. now rewrite <- app_assoc.
      * now rewrite !fupd_other by auto.
    + intros x. cbn [map give].
      replace (map (fupd (value A) a (Some v)) todo) with (map (value A) todo).
      * now rewrite Ev.
      * apply map_ext_in. intros y Hy. symmetry. apply fupd_other. intros ->.
        apply (Na j). rewrite Ej. apply in_or_app; right; now right.
Qed.

Lemma refused w A i j l x y r : QR w A -> seqs A j = l ++ x :: y :: r ->
  push w i x = Ok (w, 0) /\ unshift w i x = Ok (w, 0).
Proof.
  intros H E. unfold push, unshift, qnext.
  assert (Ix : In x (seqs A j)) by (rewrite E; apply in_or_app; right; now left).
  assert (Iy : In y (seqs A j)) by (rewrite E; apply in_or_app; right; right; now left).
  rewrite getf_Ok by (eapply Q_alive_in; eauto). cbn [bind].
  pose proof (Q_queue _ _ H j) as (_ & Z & _ & _ & _ & C). rewrite (C _ _ _ E). cbn [hd].
  rewrite eqb_0 by (intros ->; auto). auto.
Qed.

Lemma sim_qstep w A c A' r : QR w A -> qstep A c A' r -> exists w', qexec w c = Ok (w', r) /\ QR w' A'.
Proof.
  intros H St. destruct St as [A c A' r St Hq Hi | |].
  2,3: destruct (refused w A i j l x y r H H0) as [E1 E2]; cbn [qexec]; rewrite ?E1, ?E2; eauto.
  destruct St; cbn [queue_call] in Hq; try contradiction; subst; cbn [qexec].
  - destruct (QR_new _ _ v a H H0) as (w1 & E1 & H1). rewrite E1. cbn. eauto.
  - destruct (QR_delete _ _ x H H0 H1) as (w1 & E1 & H2). rewrite E1. cbn. eauto.
  - destruct (QR_new _ _ v a H H0) as (w1 & E1 & H2). rewrite E1. cbn [bind].
    destruct (sim_push _ _ i a H2) as (w2 & E2 & H3); eauto.
    { unfold exists_node; cbn. rewrite fupd_same. discriminate. }
    { intros [k K]. cbn in K. apply (Q_owned _ _ H) in K. now apply K, H0. }
    rewrite put_before_end by apply (Q_queue _ _ H i). eauto.
  - destruct (sim_push _ _ i x H) as (w2 & E2 & H3); eauto.
    rewrite put_before_end by apply (Q_queue _ _ H i). eauto.
  - exfalso. apply (Hi x); [reflexivity|]. now exists j.
  - destruct (QR_new _ _ v a H H0) as (w1 & E1 & H2). rewrite E1. cbn [bind].
    destruct (sim_unshift _ _ i a H2) as (w2 & E2 & H3); eauto.
    { unfold exists_node; cbn. rewrite fupd_same. discriminate. }
    { intros [k K]. cbn in K. apply (Q_owned _ _ H) in K. now apply K, H0. }
  - destruct (sim_unshift _ _ i x H) as (w2 & E2 & H3); eauto.
  - exfalso. apply (Hi x); [reflexivity|]. now exists j.
  - destruct (sim_qshift _ _ _ _ _ H H0) as (w1 & E1 & H1). eauto.
  - unfold qshift. pose proof (Q_queue _ _ H i) as (_ & _ & Hh & _). rewrite H0 in Hh. cbn in Hh.
    rewrite Hh. cbn. eauto.
  - destruct (sim_qempty _ _ i H) as (w1 & E1 & H1). rewrite E1. cbn. eauto.
  - destruct (sim_qappend _ _ i j H H0) as (w1 & E1 & H1). rewrite E1. cbn. eauto.
  - unfold qassign. apply Nat.eqb_neq in H0 as H0'. rewrite H0'.
    destruct (sim_qempty _ _ i H) as (w1 & E1 & H4). rewrite E1. cbn [bind].
    assert (Hh : qhd (queues w1 j) = hd 0 (seqs A j)).
    { pose proof (Q_queue _ _ H4 j) as (_ & _ & Hh & _). rewrite Hh. cbn. now rewrite fupd_other by auto. }
    rewrite Hh.
    destruct (sim_qcopy_loop j (seqs A j) w1 _ i fresh [] H4 H0) as (w2 & E2 & H5); auto.
    { cbn. now rewrite fupd_other by auto. }
    rewrite E2. cbn [bind]. eexists; split; [reflexivity|].
    apply QR_ext with (1 := H5); cbn [seqs value].
    + intros k. destruct (Nat.eq_dec k i) as [->|D]; [now rewrite !fupd_same|]. now rewrite !fupd_other.
    + intros x. f_equal. apply map_ext_in. intros y Hy. apply drop_all_notin. intros K.
      apply H0. now apply (Q_disj _ _ H i j y).
  - unfold qassign. rewrite Nat.eqb_refl. cbn. eauto.
Qed.

Lemma sim_qrun cs : forall w A A' rs, QR w A -> qsteps A cs A' rs ->
  exists w', qrun w cs = Ok (w', rs) /\ QR w' A'.
Proof.
  induction cs as [|c cs IH]; intros w A A' rs H St; inversion St; subst.
  - exists w. auto.
  - match goal with S1 : qstep _ _ _ _, S2 : qsteps _ cs _ _ |- _ =>
      destruct (sim_qstep _ _ _ _ _ H S1) as (w1 & E1 & H1);
      destruct (IH _ _ _ _ H1 S2) as (w2 & E2 & H2) end.
    cbn. rewrite E1. cbn. rewrite E2. cbn. eauto.
Qed.

Lemma qwalk_chain w n : forall xs d, chain (qnx w) xs -> (forall x, In x xs -> qalive w x = true) ->
  ~ In 0 xs -> length xs <= n -> d = hd 0 xs -> qwalk w n d = Ok xs.
Proof.
  induction n as [|n IH]; intros [|x xs] d C Al Z Hn ->; cbn in Hn; cbn [qwalk hd];
    try reflexivity; try lia.
  rewrite (eqb_0 x) by (intros ->; apply Z; now left).
  unfold qnext. rewrite getf_Ok by (apply Al; now left). cbn [bind].
  rewrite (C [] x xs eq_refl).
  rewrite (IH xs); auto; try lia.
  - intros l y r ->. now apply (C (x :: l)).
  - intros y Hy; apply Al; now right.
  - intros K; apply Z; now right.
Qed.
End P.
