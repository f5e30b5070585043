(** C138: a QueueNoCopy can be copied, and then its nodes are deleted twice. *)
From Verif Require Import Base S_Seq S_Queue M_Dll M_Queue M_QueueShare P_Dll P_List P_Queue P_QueueShare.

Section T.
Context {V : Type}.

(** After any history of calls, [i] a queue that is not empty and [j] an object
    made as a copy of it: the copy shows the same nodes; in whichever order the
    two are destroyed, the first goes well and the second uses deleted memory. *)
Theorem C138_refuted (cs : list (call V)) A rs i j :
  qsteps start cs A rs -> i <> j -> seqs A j = [] -> seqs A i <> [] ->
  exists w, qrun qinit cs = Ok (w, rs) /\
    let w1 := copy_members w i j in
    qwalk w1 (length (seqs A i)) (qhd (queues w1 j)) = Ok (seqs A i) /\
    (exists w2, destroy w1 i = Ok w2 /\ destroy w2 j = UB) /\
    (exists w2, destroy w1 j = Ok w2 /\ destroy w2 i = UB).
Proof.
  intros St D Ej Ni. destruct (sim_qrun _ _ _ _ _ QR_init St) as (w & E & H).
  exists w. split; auto. cbv zeta. unfold destroy. split; [|split].
  - pose proof (Q_queue _ _ H i) as (_ & Z & Hh & _ & _ & C).
    pose proof (fun x => Q_alive_in w _ i x H) as Al.
    unfold copy_members, set_queue; cbn. rewrite fupd_same.
    rewrite (qwalk_chain (copy_members w i j) (length (seqs A i)) (seqs A i)); auto.
  - apply (twice w A); auto. unfold but, copy_members, set_queue; cbn. repeat split; auto.
    + intros k K. now rewrite fupd_other.
    + now rewrite fupd_same.
  - destruct (renamed w A i j H Ej D) as (w2 & H2 & Q & B).
    apply (twice w2 _ j i _ H2).
    + cbn. rewrite (fupd_other _ i _ j) by auto. now rewrite fupd_same.
    + auto.
    + now rewrite Q.
Qed.

(** While it is empty a QueueNoCopy can be copied, and both can be destroyed. *)
Theorem C138_empty (cs : list (call V)) A rs i j :
  qsteps start cs A rs -> i <> j -> seqs A j = [] -> seqs A i = [] ->
  exists w, qrun qinit cs = Ok (w, rs) /\
    let w1 := copy_members w i j in
    exists w2 w3, destroy w1 i = Ok w2 /\ destroy w2 j = Ok w3.
Proof.
  intros St D Ej Ei. destruct (sim_qrun _ _ _ _ _ QR_init St) as (w & E & H).
  exists w. split; auto. cbv zeta.
  destruct (renamed w A i j H Ej D) as (w2 & _ & Q & B). clear B w2 Q.
  pose proof (Q_queue _ _ H i) as (_ & _ & h & _ & n & _). rewrite Ei in *. cbn in h, n.
  unfold destroy, qempty, copy_members, set_queue; cbn. rewrite fupd_other by auto. rewrite n. cbn.
  rewrite fupd_other, h by auto. cbn. rewrite fupd_other by auto. cbn.
  do 2 eexists. split; [reflexivity|]. cbn.
  rewrite (fupd_other _ i _ j) by auto. rewrite fupd_same, n. cbn.
  rewrite (fupd_other _ i _ j) by auto. rewrite fupd_same, h. cbn. reflexivity.
Qed.
End T.

(** Three values are pushed, one is taken, the queue is copied. *)
Example C138_ex :
  let cs := [InsertBeforeV 1 0 70 5; InsertBeforeV 1 0 71 6; InsertAfterV 1 0 72 9; Shift 1] in
  match qrun (@qinit nat) cs with
  | Ok (w, rs) =>
      let w1 := copy_members w 1 2 in
      rs = [5; 6; 9; 9] /\ qwalk w1 2 (qhd (queues w1 2)) = Ok [5; 6] /\
      match destroy w1 2 with Ok w2 => destroy w2 1 = UB /\ qalive w2 5 = false | _ => False end
  | _ => False
  end.
Proof. vm_compute. tauto. Qed.

Print Assumptions C138_refuted.
Print Assumptions C138_empty.
