(** C139: a.DetachAllAndAppend(a). *)
From Verif Require Import Base S_Seq S_Queue M_Dll M_List M_Queue P_Dll P_List P_Queue Prop_List.

Section T.
Context {V : Type}.

Lemma run_app (cs : list (call V)) : forall w c w1 rs w2 r, run w cs = Ok (w1, rs) -> exec w1 c = Ok (w2, r) ->
  run w (cs ++ [c]) = Ok (w2, rs ++ [r]).
Proof.
  induction cs as [|d cs IH]; intros w c w1 rs w2 r; cbn [run app].
  - intros E1 E2. injection E1 as -> <-. rewrite E2. reflexivity.
  - destruct (exec w d) as [[w3 x]| |] eqn:Ed; cbn [bind]; try discriminate.
    destruct (run w3 cs) as [[w4 xs]| |] eqn:Er; cbn [bind]; try discriminate.
    intros E1 E2. injection E1 as <- <-. rewrite (IH _ _ _ _ _ _ Er E2). reflexivity.
Qed.
Lemma qrun_app (cs : list (call V)) : forall w c w1 rs w2 r, qrun w cs = Ok (w1, rs) -> qexec w1 c = Ok (w2, r) ->
  qrun w (cs ++ [c]) = Ok (w2, rs ++ [r]).
Proof.
  induction cs as [|d cs IH]; intros w c w1 rs w2 r; cbn [qrun app].
  - intros E1 E2. injection E1 as -> <-. rewrite E2. reflexivity.
  - destruct (qexec w d) as [[w3 x]| |] eqn:Ed; cbn [bind]; try discriminate.
    destruct (qrun w3 cs) as [[w4 xs]| |] eqn:Er; cbn [bind]; try discriminate.
    intros E1 E2. injection E1 as <- <-. rewrite (IH _ _ _ _ _ _ Er E2). reflexivity.
Qed.

Lemma last_in (xs : list nat) : xs <> [] -> In (last xs 0) xs.
Proof. intros N. destruct (exists_last N) as (l & x & ->). rewrite last_last. apply in_or_app; right; now left. Qed.

(** After any history, on a list that is not empty: the list is empty afterwards,
    the other lists are as before, its nodes and their values still exist, and
    they form a ring that no list holds. *)
Theorem C139_list_refuted (cs : list (call V)) A rs i :
  asteps start cs A rs -> seqs A i <> [] ->
  exists w, run init (cs ++ [DetachAllAndAppend i i]) = Ok (w, rs ++ [0]) /\
    lists w i = empty_list /\
    (forall k, k <> i -> walk_forward w k (length (seqs A k)) = Ok (seqs A k)) /\
    (forall x, In x (seqs A i) -> alive w x = true /\ vl w x = value A x /\ forall k, ~ (hd_ (ends_ (lists w k)) = x)) /\
    next_of w (last (seqs A i) 0) = Ok (hd 0 (seqs A i)) /\ prev_of w (hd 0 (seqs A i)) = Ok (last (seqs A i) 0).
Proof.
  intros St Ne. destruct (sim_run _ _ _ _ _ R_init St) as (w & E & H).
  pose proof (R_list _ _ H i) as (Nd & Z & Hh & Ht & _).
  pose proof (last_in _ Ne) as Il.
  assert (Ih : In (hd 0 (seqs A i)) (seqs A i)) by (destruct (seqs A i); [congruence|now left]).
  assert (Al : forall x, In x (seqs A i) -> alive w x = true) by (intros x K; apply (R_alive _ _ H); eapply R_owned; eauto).
  assert (Hz : hd 0 (seqs A i) <> 0) by (intros K; rewrite K in Ih; auto).
  assert (Lz : last (seqs A i) 0 <> 0) by (intros K; rewrite K in Il; auto).
  assert (X : exists w', exec w (DetachAllAndAppend i i) = Ok (w', 0) /\ lists w' i = empty_list /\
     (forall k, k <> i -> lists w' k = lists w k) /\ alive w' = alive w /\ vl w' = vl w /\
     lnk w' = Links (fupd (nx (lnk w)) (last (seqs A i) 0) (hd 0 (seqs A i))) (fupd (pv (lnk w)) (hd 0 (seqs A i)) (last (seqs A i) 0))).
  { cbn [exec]. unfold detach_all_and_append. cbv zeta. rewrite Hh, Ht, (eqb_0 _ Hz), (eqb_0 _ Lz). cbn [negb].
    unfold setf. rewrite (Al _ Il), (Al _ Ih). cbn [bind].
    eexists. split; [reflexivity|]. unfold set_list, set_links. cbn [lists alive vl lnk]. rewrite fupd_same. repeat split; auto.
    intros k K. now rewrite !fupd_other. }
  destruct X as (w' & E' & L1 & L2 & L3 & L4 & L5).
  exists w'. split; [eapply run_app; eauto|]. split; [exact L1|]. split; [|split; [|split]].
  - intros k K. unfold walk_forward. rewrite (L2 k K).
    assert (Fr : forall x, In x (seqs A k) -> nx (lnk w') x = nx (lnk w) x).
    { intros x Kx. rewrite L5. cbn [nx]. apply fupd_other. intros ->. apply K. eapply R_disj; eauto. }
    destruct (observe w A k (length (seqs A k)) H (le_n _)) as [O _]. unfold walk_forward in O.
    pose proof (R_list _ _ H k) as (_ & Zk & Hk & _ & _).
    assert (Alk : forall x, In x (seqs A k) -> alive w x = true) by (intros x Kx; apply (R_alive _ _ H); eapply R_owned; eauto).
    revert O. generalize (length (seqs A k)) as n. generalize (hd_ (ends_ (lists w k))) as p.
    assert (G : forall n p ys, walk (next_of w) n p = Ok ys -> (forall y, In y ys -> In y (seqs A k)) -> walk (next_of w') n p = Ok ys).
    { induction n as [|n IH]; intros p ys; cbn [walk]; destruct (Nat.eqb p 0); auto.
      destruct (next_of w p) as [q| |] eqn:En; cbn [bind]; try discriminate.
      destruct (walk (next_of w) n q) as [r| |] eqn:Ew; cbn [bind]; try discriminate.
      intros Ey Sub. injection Ey as <-.
      assert (En' : next_of w' p = Ok q).
      { revert En. unfold next_of, getf. rewrite L3, (Fr p) by (apply Sub; now left). auto. }
      rewrite En'. cbn [bind].
      rewrite (IH _ _ Ew) by (intros y Ky; apply Sub; now right). reflexivity. }
    intros p n O. apply G; auto.
  - intros x Kx. rewrite L3, L4. split; [auto|]. split; [apply (R_value _ _ H)|].
    intros k Hk. destruct (Nat.eq_dec k i) as [->|D].
    + rewrite L1 in Hk. cbn in Hk. apply Z. now rewrite Hk.
    + rewrite (L2 k D) in Hk. pose proof (R_list _ _ H k) as (_ & _ & Hh2 & _ & _).
      destruct (seqs A k) as [|y r] eqn:Ek.
      * cbn in Hh2. apply Z. replace 0 with x by congruence. exact Kx.
      * cbn in Hh2. apply D. apply (R_disj _ _ H k i x); auto. rewrite Ek. left. congruence.
  - unfold next_of, getf. rewrite L3, (Al _ Il), L5. cbn [nx]. now rewrite fupd_same.
  - unfold prev_of, getf. rewrite L3, (Al _ Ih), L5. cbn [pv]. now rewrite fupd_same.
Qed.

(** The same for queues. *)
Theorem C139_queue_refuted (cs : list (call V)) A rs i :
  qsteps start cs A rs -> seqs A i <> [] ->
  exists w, qrun qinit (cs ++ [DetachAllAndAppend i i]) = Ok (w, rs ++ [0]) /\
    queues w i = empty_queue /\
    (forall k, k <> i -> qwalk w (length (seqs A k)) (qhd (queues w k)) = Ok (seqs A k)) /\
    (forall x, In x (seqs A i) -> qalive w x = true /\ qvl w x = value A x /\ forall k, ~ (qhd (queues w k) = x)) /\
    qnext w (last (seqs A i) 0) = Ok (hd 0 (seqs A i)).
Proof.
  intros St Ne. destruct (sim_qrun _ _ _ _ _ QR_init St) as (w & E & H).
  pose proof (Q_queue _ _ H i) as (Nd & Z & Hh & Ht & _).
  pose proof (last_in _ Ne) as Il.
  assert (Ih : In (hd 0 (seqs A i)) (seqs A i)) by (destruct (seqs A i); [congruence|now left]).
  pose proof (fun k x => Q_alive_in w _ k x H) as Al.
  assert (Hz : hd 0 (seqs A i) <> 0) by (intros K; rewrite K in Ih; auto).
  assert (Lz : last (seqs A i) 0 <> 0) by (intros K; rewrite K in Il; auto).
  assert (X : exists w', qexec w (DetachAllAndAppend i i) = Ok (w', 0) /\ queues w' i = empty_queue /\
     (forall k, k <> i -> queues w' k = queues w k) /\ qalive w' = qalive w /\ qvl w' = qvl w /\
     qnx w' = fupd (qnx w) (last (seqs A i) 0) (hd 0 (seqs A i))).
  { cbn [qexec]. unfold qappend. cbv zeta. rewrite Hh, Ht, (eqb_0 _ Hz), (eqb_0 _ Lz). cbn [negb].
    unfold setf. rewrite (Al _ _ Il). cbn [bind].
    eexists. split; [reflexivity|]. unfold set_queue, set_qnx. cbn [queues qalive qvl qnx]. rewrite fupd_same. repeat split; auto.
    intros k K. now rewrite !fupd_other. }
  destruct X as (w' & E' & L1 & L2 & L3 & L4 & L5).
  exists w'. split; [eapply qrun_app; eauto|]. split; [exact L1|]. split; [|split].
  - intros k K. rewrite (L2 k K). pose proof (Q_queue _ _ H k) as (_ & Zk & Hk & _ & _ & C).
    apply qwalk_chain; auto.
    + apply chain_frame with (qnx w); auto. intros x Kx. rewrite L5. apply fupd_other. intros ->. apply K. eapply Q_disj; eauto.
    + intros x Kx. rewrite L3. eauto.
  - intros x Kx. rewrite L3, L4. split; [eauto|]. split; [apply (Q_value _ _ H)|].
    intros k Hk. destruct (Nat.eq_dec k i) as [->|D].
    + rewrite L1 in Hk. cbn in Hk. apply Z. now rewrite Hk.
    + rewrite (L2 k D) in Hk. pose proof (Q_queue _ _ H k) as (_ & _ & Hh2 & _ & _).
      destruct (seqs A k) as [|y r] eqn:Ek.
      * cbn in Hh2. apply Z. replace 0 with x by congruence. exact Kx.
      * cbn in Hh2. apply D. apply (Q_disj _ _ H k i x); auto. rewrite Ek. left. congruence.
  - unfold qnext, getf. rewrite L3, (Al _ _ Il), L5. now rewrite fupd_same.
Qed.

(** Nothing happens to empty ones. *)
Theorem C139_empty (cs : list (call V)) A rs i :
  asteps start cs A rs -> seqs A i = [] ->
  exists w, run init cs = Ok (w, rs) /\ run init (cs ++ [DetachAllAndAppend i i]) = Ok (w, rs ++ [0]).
Proof.
  intros St Ei. destruct (sim_run _ _ _ _ _ R_init St) as (w & E & H). exists w. split; [exact E|].
  eapply run_app; [exact E|]. pose proof (R_list _ _ H i) as (_ & _ & Hh & _). rewrite Ei in Hh. cbn in Hh.
  cbn [exec]. unfold detach_all_and_append. cbv zeta. rewrite Hh. reflexivity.
Qed.
Theorem C139_empty_queue (cs : list (call V)) A rs i :
  qsteps start cs A rs -> seqs A i = [] ->
  exists w, qrun qinit cs = Ok (w, rs) /\ qrun qinit (cs ++ [DetachAllAndAppend i i]) = Ok (w, rs ++ [0]).
Proof.
  intros St Ei. destruct (sim_qrun _ _ _ _ _ QR_init St) as (w & E & H). exists w. split; [exact E|].
  eapply qrun_app; [exact E|]. pose proof (Q_queue _ _ H i) as (_ & _ & Hh & _). rewrite Ei in Hh. cbn in Hh.
  cbn [qexec]. unfold qappend. cbv zeta. rewrite Hh. reflexivity.
Qed.
End T.

(** Two lists; the first is appended to itself. *)
Example C139_ex :
  match run (@init nat) [InsertBeforeV 1 0 70 5; InsertBeforeV 1 0 71 6; InsertBeforeV 2 0 72 9; DetachAllAndAppend 1 1] with
  | Ok (w, _) => walk_forward w 1 9 = Ok [] /\ walk_forward w 2 9 = Ok [9] /\ alive w 5 = true /\ alive w 6 = true /\ next_of w 6 = Ok 5
  | _ => False
  end.
Proof. vm_compute. tauto. Qed.

Print Assumptions C139_list_refuted.
Print Assumptions C139_queue_refuted.
Print Assumptions C139_empty.
Print Assumptions C139_empty_queue.
