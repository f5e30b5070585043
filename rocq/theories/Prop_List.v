(** C18, C19, C20: List<T> and Queue<T> are sequences. *)
From Verif Require Import Base S_Seq S_Queue M_Dll M_List M_Queue P_Dll P_List P_Queue.

Section T.
Context {V : Type}.

(** Every history of calls that obeys the documented rules runs without
    undefined behaviour and returns what the sequence specification says;
    afterwards, for every list, the walk First/Next visits exactly its
    sequence, the walk Last/Prev the reverse, GetSize is the length, every
    node holds its value, and every detached node has no neighbours. *)
Theorem C18_list_is_a_sequence (cs : list (call V)) A rs :
  asteps start cs A rs ->
  exists w, run init cs = Ok (w, rs) /\
    (forall i n, length (seqs A i) <= n ->
       walk_forward w i n = Ok (seqs A i) /\ walk_backward w i n = Ok (rev (seqs A i))) /\
    (forall i, num (lists w i) = N.of_nat (length (seqs A i))) /\
    (forall i, hd_ (ends_ (lists w i)) = hd 0 (seqs A i) /\ tl_ (ends_ (lists w i)) = last (seqs A i) 0) /\
    (forall x v, value A x = Some v -> getf (alive w) (vl w) x = Ok (Some v)) /\
    (forall x, exists_node A x -> ~ attached A x -> next_of w x = Ok 0 /\ prev_of w x = Ok 0).
Proof.
  intros St. destruct (sim_run _ _ _ _ _ R_init St) as (w & E & H).
  exists w. split; [exact E|]. split; [intros; now apply observe|].
  split; [apply (R_num _ _ H)|].
  split; [intros i; pose proof (R_list _ _ H i) as (_ & _ & a & b & _); auto|].
  split.
  - intros x v Hv. rewrite getf_Ok; [now rewrite (R_value _ _ H), Hv|].
    apply (R_alive _ _ H). unfold exists_node. congruence.
  - intros x Hx Ha. unfold next_of, prev_of. rewrite !getf_Ok by now apply (R_alive _ _ H).
    destruct (R_loose _ _ H x Hx Ha) as [-> ->]. auto.
Qed.

(** The rule matters: a node that is alone in its list has no neighbours, so
    inserting it a second time is not refused, and the list becomes a cycle
    on which the First/Next walk never ends. *)
Theorem C18_single_node_reinsertion_not_detected (v : V) :
  exists w, run init [InsertBeforeV 0 0 v 1; InsertBeforeN 0 0 1] = Ok (w, [1; 1]) /\
    forall n, walk_forward w 0 n = Fuel.
Proof.
  eexists; split; [reflexivity|]. unfold walk_forward. cbn.
  induction n as [|n IH]; [reflexivity|]. cbn. cbn in IH. now rewrite IH.
Qed.

(** Queues: the same for histories of Push, Unshift, Shift and the bulk calls. *)
Theorem C19_queue_is_a_sequence (cs : list (call V)) A rs :
  qsteps start cs A rs ->
  exists w, qrun qinit cs = Ok (w, rs) /\
    (forall i n, length (seqs A i) <= n -> qwalk w n (qhd (queues w i)) = Ok (seqs A i)) /\
    (forall i, qnum (queues w i) = N.of_nat (length (seqs A i))) /\
    (forall i, qtl (queues w i) = last (seqs A i) 0) /\
    (forall i, (exists w', qexec w (Shift i) = Ok (w', hd 0 (seqs A i))) /\
               (hd 0 (seqs A i) = 0 <-> seqs A i = [])) /\
    (forall x v, value A x = Some v -> getf (qalive w) (qvl w) x = Ok (Some v)) /\
    (forall x, exists_node A x -> ~ attached A x -> qnext w x = Ok 0).
Proof.
  intros St. destruct (sim_qrun _ _ _ _ _ QR_init St) as (w & E & H).
  exists w. split; [exact E|].
  split; [intros i n Hn; pose proof (Q_queue _ _ H i) as (_ & Z & Hh & _ & _ & C);
          apply qwalk_chain; auto; intros x; eapply Q_alive_in; eauto|].
  split; [intros i; apply (Q_queue _ _ H i)|].
  split; [intros i; apply (Q_queue _ _ H i)|].
  split; [intros i; split|split].
  - destruct (seqs A i) as [|x xs] eqn:Es.
    + destruct (sim_qstep w A (Shift i) A 0 H) as (w' & E' & _); [|eauto].
      constructor; [now constructor|exact I|intros ? []].
    + destruct (sim_qstep w A (Shift i) (Abs (fupd (seqs A) i xs) (value A)) x H) as (w' & E' & _); [|eauto].
      constructor; [now constructor|exact I|intros ? []].
  - pose proof (Q_queue _ _ H i) as (_ & Z & _). destruct (seqs A i) as [|x xs]; cbn; [tauto|].
    split; [|discriminate]. intros ->. destruct Z; now left.
  - intros x v Hv. rewrite getf_Ok; [now rewrite (Q_value _ _ H), Hv|].
    apply (Q_alive _ _ H). unfold exists_node. congruence.
  - intros x Hx Ha. unfold qnext. rewrite !getf_Ok by now apply (Q_alive _ _ H).
    now rewrite (Q_loose _ _ H x Hx Ha).
Qed.

Lemma asteps_snoc (cs : list (call V)) : forall A B rs c C r, asteps A cs B rs -> astep B c C r ->
  asteps A (cs ++ [c]) C (rs ++ [r]).
Proof.
  induction cs as [|c0 cs IH]; intros A B rs c C r H1 H2; inversion H1; subst; cbn.
  - econstructor; [exact H2|constructor].
  - econstructor; [eassumption|]. eapply IH; eauto.
Qed.

Lemma qsteps_snoc (cs : list (call V)) : forall A B rs c C r, qsteps A cs B rs -> qstep B c C r ->
  qsteps A (cs ++ [c]) C (rs ++ [r]).
Proof.
  induction cs as [|c0 cs IH]; intros A B rs c C r H1 H2; inversion H1; subst; cbn.
  - econstructor; [exact H2|constructor].
  - econstructor; [eassumption|]. eapply IH; eauto.
Qed.

(** After any history, a.DetachAllAndAppend(b) on two different lists:
    a holds the old a followed by the old b, in both directions, b is empty,
    and the sizes are right. *)
Theorem C20_append_lists (cs : list (call V)) A rs i j :
  asteps start cs A rs -> i <> j ->
  exists w, run init (cs ++ [DetachAllAndAppend i j]) = Ok (w, rs ++ [0]) /\
    let both := seqs A i ++ seqs A j in
    walk_forward w i (length both) = Ok both /\
    walk_backward w i (length both) = Ok (rev both) /\
    num (lists w i) = N.of_nat (length both) /\
    lists w j = empty_list.
Proof.
  intros St D.
  pose proof (asteps_snoc _ _ _ _ _ _ _ St (SAppend A i j D)) as St2.
  destruct (sim_run _ _ _ _ _ R_init St2) as (w & E & H).
  exists w. split; [exact E|]. cbn zeta.
  pose proof (observe w _ i (length (seqs A i ++ seqs A j)) H) as Ob.
  pose proof (R_num _ _ H i) as Ni. pose proof (R_num _ _ H j) as Nj. pose proof (R_list _ _ H j) as Dj.
  cbn [seqs] in *. rewrite (fupd_other _ j), fupd_same in Ob, Ni by auto.
  rewrite fupd_same in Nj, Dj. destruct (Ob (le_n _)) as [O1 O2].
  split; auto. split; auto. split; auto.
  destruct Dj as (_ & _ & Hh & Ht & _). unfold empty_list.
  destruct (lists w j) as [[h t] n]. cbn in *. congruence.
Qed.

Theorem C20_append_queues (cs : list (call V)) A rs i j :
  qsteps start cs A rs -> i <> j ->
  exists w, qrun qinit (cs ++ [DetachAllAndAppend i j]) = Ok (w, rs ++ [0]) /\
    let both := seqs A i ++ seqs A j in
    qwalk w (length both) (qhd (queues w i)) = Ok both /\
    qtl (queues w i) = last both 0 /\
    qnum (queues w i) = N.of_nat (length both) /\
    queues w j = empty_queue.
Proof.
  intros St D.
  assert (St2 : qstep A (DetachAllAndAppend i j) (Abs (fupd (fupd (seqs A) i (seqs A i ++ seqs A j)) j []) (value A)) 0).
  { constructor; [now constructor|exact I|intros ? []]. }
  pose proof (qsteps_snoc _ _ _ _ _ _ _ St St2) as St3.
  destruct (sim_qrun _ _ _ _ _ QR_init St3) as (w & E & H).
  exists w. split; [exact E|]. cbn zeta.
  pose proof (Q_queue _ _ H i) as Di. pose proof (Q_queue _ _ H j) as Dj.
  pose proof (fun x => Q_alive_in w _ i x H) as Al.
  cbn [seqs] in *. rewrite (fupd_other _ j), fupd_same in Di, Al by auto.
  rewrite fupd_same in Dj.
  destruct Di as (_ & Z & Hh & Ht & Hn & C).
  split; [apply qwalk_chain; auto|]. split; auto. split; auto.
  destruct Dj as (_ & _ & Hh' & Ht' & Hn' & _). unfold empty_queue.
  destruct (queues w j) as [h t n]. cbn in *. congruence.
Qed.

Lemma give_map fresh : forall (vs : list (option V)) f, NoDup fresh -> length fresh = length vs ->
  map (give fresh vs f) fresh = vs.
Proof.
  induction fresh as [|a fr IH]; intros [|v vs] f Nd Hl; try discriminate; auto.
  apply NoDup_cons_iff in Nd as [Na Nd]. cbn [give map]. f_equal.
  - rewrite give_other by auto. apply fupd_same.
  - apply IH; auto.
Qed.

(** After any history, assigning list j to a different list i (or copy
    constructing i from j): i holds, in fresh nodes, the same values in the same order. *)
Theorem C20_copy_lists (cs : list (call V)) A rs i j fresh A' :
  asteps start cs A rs -> i <> j -> astep A (Assign i j fresh) A' 0 ->
  exists w, run init (cs ++ [Assign i j fresh]) = Ok (w, rs ++ [0]) /\
    exists xs ys, walk_forward w i (length xs) = Ok xs /\ walk_forward w j (length ys) = Ok ys /\
      map (vl w) xs = map (vl w) ys /\ map (vl w) ys = map (value A) (seqs A j) /\
      ys = seqs A j /\ (forall x, In x xs -> ~ In x ys) /\ num (lists w i) = num (lists w j).
Proof.
  intros St D Sa.
  pose proof (asteps_snoc _ _ _ _ _ _ _ St Sa) as St2.
  destruct (sim_run _ _ _ _ _ R_init St) as (w0 & _ & H0).
  destruct (sim_run _ _ _ _ _ R_init St2) as (w & E & H).
  exists w. split; [exact E|].
  inversion Sa as [| | | | | | | | | | | | | | | | | |? ? ? ? _ Hlen Nd Hfresh|]; subst; [|congruence].
  set (A2 := Abs _ _) in H. assert (EA : seqs A2 i = fresh) by (unfold A2; cbn; apply fupd_same).
  assert (EB : seqs A2 j = seqs A j) by (unfold A2; cbn; apply fupd_other; auto).
  exists (seqs A2 i), (seqs A2 j).
  split; [apply observe; auto|]. split; [apply observe; auto|].
  assert (Hv : forall x, vl w x = value A2 x) by apply (R_value _ _ H).
  rewrite !(map_ext _ _ Hv). rewrite EA, EB. unfold A2; cbn [value].
  assert (Dj : forall x, In x fresh -> ~ In x (seqs A j)).
  { intros x Hx Hj. destruct (Hfresh x Hx) as [_ K]. rewrite drop_all_notin in K.
    - now apply (R_owned _ _ H0 j x Hj).
    - intros Hi. apply D. now apply (R_disj _ _ H0 i j x). }
  assert (Ej : map (give fresh (map (value A) (seqs A j)) (drop_all (seqs A i) (value A))) (seqs A j)
     = map (value A) (seqs A j)).
  { apply map_ext_in. intros y Hy. rewrite give_other by (intros K; now apply (Dj y)).
    apply drop_all_notin. intros K. apply D. now apply (R_disj _ _ H0 i j y). }
  split; [rewrite give_map, Ej; auto; now rewrite map_length|].
  split; auto. split; auto. split; auto.
  rewrite !(R_num _ _ H), EA, EB. now rewrite Hlen.
Qed.

Theorem C20_copy_queues (cs : list (call V)) A rs i j fresh A' :
  qsteps start cs A rs -> i <> j -> astep A (Assign i j fresh) A' 0 ->
  exists w, qrun qinit (cs ++ [Assign i j fresh]) = Ok (w, rs ++ [0]) /\
    exists xs ys, qwalk w (length xs) (qhd (queues w i)) = Ok xs /\ qwalk w (length ys) (qhd (queues w j)) = Ok ys /\
      map (qvl w) xs = map (qvl w) ys /\ map (qvl w) ys = map (value A) (seqs A j) /\
      ys = seqs A j /\ (forall x, In x xs -> ~ In x ys) /\ qnum (queues w i) = qnum (queues w j).
Proof.
  intros St D Sa.
  assert (Sa' : qstep A (Assign i j fresh) A' 0) by (constructor; [exact Sa|exact I|intros ? []]).
  pose proof (qsteps_snoc _ _ _ _ _ _ _ St Sa') as St2.
  destruct (sim_qrun _ _ _ _ _ QR_init St) as (w0 & _ & H0).
  destruct (sim_qrun _ _ _ _ _ QR_init St2) as (w & E & H).
  exists w. split; [exact E|].
  inversion Sa as [| | | | | | | | | | | | | | | | | |? ? ? ? _ Hlen Nd Hfresh|]; subst; [|congruence].
  set (A2 := Abs _ _) in H. assert (EA : seqs A2 i = fresh) by (unfold A2; cbn; apply fupd_same).
  assert (EB : seqs A2 j = seqs A j) by (unfold A2; cbn; apply fupd_other; auto).
  exists (seqs A2 i), (seqs A2 j).
  assert (W : forall k, qwalk w (length (seqs A2 k)) (qhd (queues w k)) = Ok (seqs A2 k)).
  { intros k. pose proof (Q_queue _ _ H k) as (_ & Z & Hh & _ & _ & C).
    apply qwalk_chain; auto. intros x; eapply Q_alive_in; eauto. }
  split; [apply W|]. split; [apply W|].
  assert (Hv : forall x, qvl w x = value A2 x) by apply (Q_value _ _ H).
  rewrite !(map_ext _ _ Hv). rewrite EA, EB. unfold A2; cbn [value].
  assert (Dj : forall x, In x fresh -> ~ In x (seqs A j)).
  { intros x Hx Hj. destruct (Hfresh x Hx) as [_ K]. rewrite drop_all_notin in K.
    - now apply (Q_owned _ _ H0 j x Hj).
    - intros Hi. apply D. now apply (Q_disj _ _ H0 i j x). }
  assert (Ej : map (give fresh (map (value A) (seqs A j)) (drop_all (seqs A i) (value A))) (seqs A j)
     = map (value A) (seqs A j)).
  { apply map_ext_in. intros y Hy. rewrite give_other by (intros K; now apply (Dj y)).
    apply drop_all_notin. intros K. apply D. now apply (Q_disj _ _ H0 i j y). }
  split; [rewrite give_map, Ej; auto; now rewrite map_length|].
  split; auto. split; auto. split; auto.
  destruct (Q_queue _ _ H i) as (_ & _ & _ & _ & -> & _). destruct (Q_queue _ _ H j) as (_ & _ & _ & _ & -> & _).
  rewrite EA, EB. now rewrite Hlen.
Qed.
End T.

(** ** Concrete cases *)

(** Push 10, 20, insert 15 before 20, unshift 5, detach 20, append it to list 1,
    then append list 0 to list 1. *)
Example C18_example :
  match run init [InsertBeforeV 0 0 10 1; InsertBeforeV 0 0 20 2; InsertBeforeV 0 2 15 3;
                  InsertAfterV 0 0 5 4; Detach 0 2; InsertBeforeN 1 0 2; InsertBeforeN 1 0 1] with
  | Ok (w, rs) => rs = [1; 2; 3; 4; 1; 2; 0] /\ walk_forward w 0 9 = Ok [4; 1; 3] /\
      walk_backward w 0 9 = Ok [3; 1; 4] /\ walk_forward w 1 9 = Ok [2] /\ num (lists w 0) = 3%N
  | _ => False
  end.
Proof. vm_compute. repeat split; reflexivity. Qed.

(** The hypotheses of C18 are met by that kind of history. *)
Example C18_example_legal :
  exists A, asteps start [InsertBeforeV 0 0 10 1; InsertBeforeV 0 0 20 2; Detach 0 1; InsertAfterN 0 2 1] A [1; 2; 1; 1]
    /\ seqs A 0 = [2; 1].
Proof.
  eexists; split.
  - econstructor; [apply SInsertBeforeV; [split; [discriminate|reflexivity]|now left]|].
    econstructor; [apply SInsertBeforeV; [split; [discriminate|reflexivity]|now left]|].
    econstructor; [apply SDetach; cbn; now left|].
    econstructor; [apply SInsertAfterN|constructor].
    + unfold exists_node; cbn. discriminate.
    + intros [[|i] K]; cbn in K; [destruct K as [K|[]]; discriminate|contradiction].
    + right. cbn. now left.
  - reflexivity.
Qed.

Example C19_example :
  match qrun qinit [InsertBeforeV 0 0 10 1; InsertAfterV 0 0 20 2; InsertBeforeV 0 0 30 3; Shift 0; InsertBeforeN 1 0 1] with
  | Ok (w, rs) => rs = [1; 2; 3; 2; 0] /\ qwalk w 9 (qhd (queues w 0)) = Ok [1; 3] /\ qnum (queues w 0) = 2%N
  | _ => False
  end.
Proof. vm_compute. repeat split; reflexivity. Qed.

Example C20_example :
  match run init [InsertBeforeV 0 0 10 1; InsertBeforeV 0 0 11 2; InsertBeforeV 1 0 20 3;
                  InsertBeforeV 1 0 21 4; Assign 2 0 [7; 8]; DetachAllAndAppend 0 1] with
  | Ok (w, _) => walk_forward w 0 9 = Ok [1; 2; 3; 4] /\ walk_backward w 0 9 = Ok [4; 3; 2; 1] /\
      walk_forward w 1 9 = Ok [] /\ walk_forward w 2 9 = Ok [7; 8] /\ map (vl w) [7; 8] = [Some 10; Some 11]
  | _ => False
  end.
Proof. vm_compute. repeat split; reflexivity. Qed.

Print Assumptions C18_list_is_a_sequence.
Print Assumptions C18_single_node_reinsertion_not_detected.
Print Assumptions C19_queue_is_a_sequence.
Print Assumptions C20_append_lists.
Print Assumptions C20_append_queues.
Print Assumptions C20_copy_lists.
Print Assumptions C20_copy_queues.
