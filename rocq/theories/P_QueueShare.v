(** Two queues that share their nodes. *)
From Verif Require Import Base S_Seq S_Queue M_Dll M_Queue M_QueueShare P_Dll P_List P_Queue.

Section P.
Context {V : Type}.
Implicit Types (w : qworld V) (A : abs V).

(** [w'] is [w] but for the object [o], which is [q] there. *)
Definition but (o : nat) (q : queue) w w' : Prop :=
  qalive w' = qalive w /\ qnx w' = qnx w /\ qvl w' = qvl w /\
  (forall k, k <> o -> queues w' k = queues w k) /\ queues w' o = q.

Lemma but_shift o q w w' i w1 x : but o q w w' -> i <> o -> qshift w i = Ok (w1, x) ->
  exists w1', qshift w' i = Ok (w1', x) /\ but o q w1 w1'.
Proof.
  intros (a & b & c & d & e) D. unfold qshift, qnext, getf, setf. rewrite a, b, (d i D).
  destruct (Nat.eqb (qhd (queues w i)) 0).
  { intros E. injection E as <- <-. exists w'. split; auto. repeat split; auto. }
  destruct (qalive w (qhd (queues w i))); cbn [bind]; [|discriminate].
  intros E. injection E as <- <-. eexists. split; [reflexivity|].
  unfold but, set_queue, set_qnx; cbn. repeat split; auto.
  - intros k K. destruct (Nat.eq_dec k i) as [->|N]; [now rewrite !fupd_same|]. rewrite !fupd_other by auto. auto.
  - rewrite fupd_other by auto. auto.
Qed.

Lemma but_delete o q w w' x w1 : but o q w w' -> qdelete w x = Ok w1 ->
  exists w1', qdelete w' x = Ok w1' /\ but o q w1 w1'.
Proof.
  intros (a & b & c & d & e). unfold qdelete. rewrite a.
  destruct (qalive w x); [|discriminate]. intros E. injection E as <-.
  eexists. split; [reflexivity|]. unfold but; cbn. rewrite c. repeat split; auto.
Qed.

Lemma but_loop o q i n : i <> o -> forall w w' w1, but o q w w' -> qempty_loop n w i = Ok w1 ->
  exists w1', qempty_loop n w' i = Ok w1' /\ but o q w1 w1'.
Proof.
  intros D. induction n as [|n IH]; intros w w' w1 B; cbn [qempty_loop];
    destruct B as (a & b & c & d & e); rewrite (d i D);
    assert (B : but o q w w') by (repeat split; auto);
    destruct (Nat.eqb (qhd (queues w i)) 0); try discriminate;
    try (intros E; injection E as <-; now exists w').
  destruct (qshift w i) as [[w2 x]| |] eqn:E1; cbn [bind]; try discriminate.
  destruct (but_shift _ _ _ _ _ _ _ B D E1) as (w2' & -> & B2). cbn [bind].
  destruct (qdelete w2 x) as [w3| |] eqn:E2; cbn [bind]; try discriminate.
  destruct (but_delete _ _ _ _ _ _ B2 E2) as (w3' & -> & B3). cbn [bind].
  now apply IH.
Qed.

Lemma but_empty o q i w w' w1 : i <> o -> but o q w w' -> qempty w i = Ok w1 ->
  exists w1', qempty w' i = Ok w1' /\ but o q w1 w1'.
Proof.
  intros D B. pose proof B as (_ & _ & _ & d & _). unfold qempty. rewrite (d i D).
  destruct (qempty_loop _ w i) as [w2| |] eqn:E; cbn [bind]; try discriminate.
  destruct (but_loop _ _ _ _ D _ _ _ B E) as (w2' & -> & B2). cbn [bind].
  intros K. injection K as <-. eexists. split; [reflexivity|].
  destruct B2 as (a & b & c & d2 & e). unfold but, set_queue; cbn. rewrite (d2 i D). repeat split; auto.
  - intros k K. destruct (Nat.eq_dec k i) as [->|N]; [now rewrite !fupd_same|]. rewrite !fupd_other by auto. auto.
  - rewrite fupd_other by auto. auto.
Qed.

(** Destroying one of the two deletes the nodes, destroying the other one
    reads them. *)
Lemma twice w A i o w' : QR w A -> seqs A i <> [] -> i <> o -> but o (queues w i) w w' ->
  exists w1, qempty w' i = Ok w1 /\ qempty w1 o = UB.
Proof.
  intros H Ne D B. destruct (sim_qempty w A i H) as (w1 & E & H1).
  destruct (but_empty _ _ _ _ _ _ D B E) as (w1' & E' & B1). exists w1'. split; auto.
  destruct B1 as (a & _ & _ & _ & e). unfold qempty. rewrite e.
  pose proof (Q_queue _ _ H i) as (_ & Z & Hh & _ & Hn & _).
  destruct (seqs A i) as [|x xs] eqn:Es; [congruence|]. cbn [hd length] in *.
  rewrite Hn, Nnat.Nat2N.id. cbn [qempty_loop]. rewrite e, Hh.
  assert (X0 : x <> 0) by (intros ->; apply Z; now left). rewrite (eqb_0 x X0).
  unfold qshift. rewrite e, Hh, (eqb_0 x X0). unfold qnext, getf. rewrite a.
  destruct (qalive w1 x) eqn:Al; [|reflexivity].
  apply (Q_alive _ _ H1) in Al. exfalso. apply Al. cbn. apply drop_all_in. now left.
Qed.

(** The nodes of [i] under the name [j]. *)
Lemma renamed w A i j : QR w A -> seqs A j = [] -> i <> j ->
  exists w2, QR w2 (Abs (fupd (fupd (seqs A) j (seqs A i)) i []) (value A)) /\
    queues w2 j = queues w i /\ but i (queues w i) w2 (copy_members w i j).
Proof.
  intros H Ej D.
  destruct (sim_qappend w A j i H) as (w2 & E & H2); auto. rewrite Ej in H2. cbn [app] in H2.
  exists w2. split; auto.
  pose proof (Q_queue _ _ H j) as (_ & _ & Hh & Ht & Hn & _). rewrite Ej in *. cbn in Hh, Ht, Hn.
  unfold qappend in E. cbv zeta in E.
  destruct (Nat.eqb (qhd (queues w i)) 0) eqn:Z.
  - injection E as <-. apply Nat.eqb_eq in Z.
    assert (Q : queues w j = queues w i).
    { pose proof (Q_queue _ _ H i) as S0. destruct (sq_end _ _ _ S0) as [(Ei & h & t)|(_ & h & _)]; [|congruence].
      destruct S0 as (_ & _ & _ & _ & n & _). rewrite Ei in n. cbn in n.
      destruct (queues w i), (queues w j); cbn in *; congruence. }
    split; auto. unfold but, copy_members, set_queue; cbn. repeat split; auto.
    + intros k K. destruct (Nat.eq_dec k j) as [->|N]; [now rewrite fupd_same|now rewrite fupd_other].
    + now rewrite fupd_other.
  - rewrite Ht in E. cbn [Nat.eqb negb bind] in E. injection E as <-. cbn.
    rewrite (fupd_other _ i _ j) by auto. rewrite !fupd_same. cbn. rewrite Hn, fupd_other by auto.
    assert (Q : Queue (qhd (queues w i)) (qtl (queues w i)) (0 + qnum (queues w i)) = queues w i).
    { destruct (queues w i); reflexivity. }
    split; [exact Q|]. unfold but, copy_members, set_queue; cbn. repeat split; auto.
    + intros k K. rewrite (fupd_other _ i _ k) by auto.
      destruct (Nat.eq_dec k j) as [->|N]; [rewrite !fupd_same; symmetry; exact Q|]. now rewrite !fupd_other.
    + now rewrite fupd_other.
Qed.
End P.
