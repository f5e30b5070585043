(** C126: semaphores and events are the same on both platforms. *)
From Verif Require Import Base M_Kernel S_Kernel P_Kernel.
Open Scope N_scope.

(** All calls give the same answers on both platforms as long as semaphores have a positive
    size, are unlocked only after a lock, automatic events are not reset, a name is used for one
    kind of object only, and is not taken again after the last object of that name is gone. *)
Theorem C126_same : forall kindof n l, usual_run kindof n start (fun _ _ => false) l ->
  run (p_step kindof) start l = run (w_step kindof n) start l.
Proof. intros kindof n l U. eapply run_same; eauto using R_start. Qed.
Print Assumptions C126_same.

(** Each of the conditions is needed. *)

(** A size that is not positive: Windows refuses to create the semaphore. *)
Theorem C126_size_refuted : forall kindof n name v, kindof O = KSem -> (v <= 0)%Z ->
  run (p_step kindof) start [Create 0 name v false false] = [(true, None)] /\
  run (w_step kindof n) start [Create 0 name v false false] = [(false, None)].
Proof.
  intros kindof n name v K H. split; [reflexivity|]. cbn. rewrite K. rewrite (proj2 (Z.leb_le _ _) H). reflexivity.
Qed.
Print Assumptions C126_size_refuted.

(** On POSIX such a semaphore of size 0 can be unlocked (and is told so) and never be locked. *)
Theorem C126_zero_refuted : forall kindof name k, kindof O = KSem ->
  run (p_step kindof) start (Create 0 name 0 false false :: repeat (Unlock 0) k ++ [Lock 0]) =
  (true, None) :: repeat (true, Some 0%Z) k ++ [(false, None)].
Proof.
  intros kindof name k K. cbn [run p_step]. f_equal.
  set (w1 := attach kindof (p_release start 0) 0 name (fresh kindof 0 0 false false)).
  assert (G : exists x, get w1 0 = Some (x, OSem 0 0)).
  { unfold w1, attach, get, fresh. cbn. rewrite K. destruct name as [s|]; cbn; rewrite ?K; cbn; rewrite ?N.eqb_refl; cbn; eauto. }
  clearbody w1. revert w1 G. induction k as [|k IH]; intros w1 [x G]; cbn [repeat app run p_step].
  - unfold try. rewrite G. reflexivity.
  - unfold p_unlock. rewrite G. cbn. f_equal. apply IH. exists x. apply get_ref in G. destruct G as [G1 G2]. unfold get. cbn.
    rewrite G1. destruct (key_eqb_spec x x); [reflexivity|congruence].
Qed.
Print Assumptions C126_zero_refuted.

(** With the size -1, that is 2^32-1 on POSIX, one unlock of the full semaphore empties it. *)
Theorem C126_wrap_refuted : forall kindof name, kindof O = KSem ->
  run (p_step kindof) start [Create 0 name (-1) false false; Lock 0; Unlock 0; Unlock 0; Lock 0] =
  [(true, None); (true, None); (true, Some (-2)%Z); (true, Some (-1)%Z); (false, None)].
Proof.
  intros kindof name K. cbn [run p_step].
  set (w1 := attach kindof (p_release start 0) 0 name (fresh kindof 0 (-1) false false)).
  assert (G : exists x, get w1 0 = Some (x, OSem 4294967295 4294967295)).
  { unfold w1, attach, get, fresh. cbn. rewrite K. destruct name as [s|]; cbn; rewrite ?K; cbn; rewrite ?N.eqb_refl; cbn; eauto. }
  destruct G as [x G].
  assert (P : forall w o, refs w O = Some x -> get (set_store w x (Some o)) 0 = Some (x, o) /\ refs (set_store w x (Some o)) O = Some x).
  { intros w o H. unfold get. cbn. rewrite H. destruct (key_eqb_spec x x); [auto|congruence]. }
  destruct (get_ref _ _ _ _ G) as [G1 _].
  unfold try at 1. rewrite G. change (4294967295 =? 0) with false. cbn iota. cbn beta.
  destruct (P w1 (OSem (4294967295 - 1) 4294967295) G1) as [G2 G3].
  unfold p_unlock at 1. rewrite G2. cbn zeta. cbn iota.
  match goal with |- context [set_store (set_store w1 x _) x (Some ?o)] => destruct (P _ o G3) as [G4 G5]; set (w3 := set_store (set_store w1 x _) x (Some o)) in * end.
  unfold p_unlock at 1. rewrite G4. cbn zeta. cbn iota.
  match goal with |- context [set_store w3 x (Some ?o)] => destruct (P _ o G5) as [G6 G7]; set (w4 := set_store w3 x (Some o)) in * end.
  unfold try. rewrite G6. reflexivity.
Qed.
Print Assumptions C126_wrap_refuted.

(** Unlocking a semaphore that is not locked: Windows says so. *)
Theorem C126_unlock_refuted : forall kindof n v, kindof O = KSem -> (0 < v < 2147483648)%Z ->
  run (p_step kindof) start [Create 0 None v false false; Unlock 0] = [(true, None); (true, Some v)] /\
  run (w_step kindof n) start [Create 0 None v false false; Unlock 0] = [(true, None); (false, None)].
Proof.
  intros kindof n v K H.
  assert (F : fresh kindof 0 v false false = OSem (Z.to_N v) (Z.to_N v)).
  { unfold fresh, u32. rewrite K. rewrite Z.mod_small by lia. reflexivity. }
  split; cbn [run p_step w_step].
  - rewrite F. unfold p_unlock. cbn. f_equal. f_equal. f_equal. f_equal. unfold i32.
    rewrite (proj2 (N.ltb_lt _ _)) by lia. now rewrite Z2N.id by lia.
  - cbn. rewrite K. replace (v <=? 0)%Z with false by (symmetry; apply Z.leb_gt; lia). cbn.
    rewrite F. unfold w_unlock, attach. cbn. now rewrite N.ltb_irrefl.
Qed.
Print Assumptions C126_unlock_refuted.

(** Resetting an automatic event: POSIX refuses, and the event stays fired. *)
Theorem C126_reset_refuted : forall kindof n v, kindof O = KEvent ->
  run (p_step kindof) start [Create 0 None v false true; Reset 0; Lock 0] = [(true, None); (false, None); (true, None)] /\
  run (w_step kindof n) start [Create 0 None v false true; Reset 0; Lock 0] = [(true, None); (true, None); (false, None)].
Proof. intros kindof n v K. split; cbn; unfold fresh; rewrite K; reflexivity. Qed.
Print Assumptions C126_reset_refuted.

(** One name for a semaphore and an event. *)
Theorem C126_names_refuted : forall kindof n s v, kindof O = KSem -> kindof 1%nat = KEvent -> (0 < v)%Z ->
  run (p_step kindof) start [Create 0 (Some s) v false false; Create 1 (Some s) v false false] = [(true, None); (true, None)] /\
  run (w_step kindof n) start [Create 0 (Some s) v false false; Create 1 (Some s) v false false] = [(true, None); (false, None)].
Proof.
  intros kindof n s v K0 K1 H. split; [reflexivity|].
  cbn. rewrite K0, K1. replace (v <=? 0)%Z with false by (symmetry; apply Z.leb_gt; lia). cbn.
  unfold attach. cbn. rewrite K0. cbn. rewrite N.eqb_refl. reflexivity.
Qed.
Print Assumptions C126_names_refuted.

(** A semaphore that was locked when its last user ended: Windows makes a new one, on POSIX
    nobody will ever get it. *)
Theorem C126_left_locked_refuted : forall kindof n s, kindof O = KSem ->
  let l := [Create 0 (Some s) 1 false false; Lock 0; Destroy 0; Create 0 (Some s) 1 false false; Lock 0] in
  run (p_step kindof) start l = [(true, None); (true, None); (true, None); (true, None); (false, None)] /\
  run (w_step kindof n) start l = [(true, None); (true, None); (true, None); (true, None); (true, None)].
Proof.
  intros kindof n s K l. unfold l. split.
  - cbn. unfold attach, fresh, try, get. cbn. rewrite K. cbn. rewrite N.eqb_refl. cbn. rewrite N.eqb_refl. cbn. rewrite N.eqb_refl. reflexivity.
  - cbn [run w_step]. change (w_release n start 0) with start. rewrite K. cbn [other_kind store start]. 
    change (1 <=? 0)%Z with false. cbn [orb].
    set (w1 := attach kindof start 0 (Some s) (fresh kindof 0 1 false false)).
    assert (G : get w1 0 = Some (Named KSem s, OSem 1 1) /\ (forall j, refs w1 (S j) = None) /\ store w1 (Named KEvent s) = None).
    { unfold w1, attach, get, fresh. cbn. rewrite K. cbn. rewrite N.eqb_refl. auto. }
    clearbody w1. destruct G as (G & N1 & N2). unfold try at 1. rewrite G. change (1 =? 0) with false. cbn iota. change (1 - 1) with 0.
    destruct (get_ref _ _ _ _ G) as [G1 _].
    set (w2 := w_release n (set_store w1 (Named KSem s) (Some (OSem 0 1))) 0).
    assert (E : refs w2 O = None /\ store w2 (Named KSem s) = None /\ store w2 (Named KEvent s) = None).
    { unfold w2, w_release. cbn [refs set_store]. rewrite G1.
      replace (referred _ _ _) with false.
      - cbn. rewrite N.eqb_refl. auto.
      - symmetry. destruct (referred n _ _) eqn:ER; auto. apply referred_true in ER. destruct ER as (j & _ & Hj).
        cbn in Hj. destruct j; cbn in Hj; [discriminate|]. rewrite N1 in Hj. discriminate. }
    clearbody w2. destruct E as (E1 & E2 & E3).
    replace (w_release n w2 0) with w2 by (unfold w_release; now rewrite E1). rewrite E3.
    unfold attach. cbn [key_of]. rewrite K. rewrite E2. unfold try, get, fresh. cbn. rewrite K, N.eqb_refl. reflexivity.
Qed.
Print Assumptions C126_left_locked_refuted.

(** Two semaphore objects of one name and a manual event, used as above. *)
Definition ex_kinds (i : nat) : kind := match i with 2%nat => KEvent | _ => KSem end.
Definition ex_calls : list op :=
  [Create 0 (Some 7) 2 false false; Create 1 (Some 7) 5 false false; Create 2 (Some 8) 0 true false;
   Lock 0; Lock 1; Lock 1; Unlock 0; Lock 1; Lock 2; Fire 2; Lock 2; Lock 2; Reset 2; Lock 2; Destroy 0; Unlock 1].
Example C126_ex :
  usual_run ex_kinds 3 start (fun _ _ => false) ex_calls /\
  run (p_step ex_kinds) start ex_calls =
    [(true, None); (true, None); (true, None); (true, None); (true, None); (false, None); (true, Some 0%Z); (true, None);
     (false, None); (true, None); (true, None); (true, None); (true, None); (false, None); (true, None); (true, Some 0%Z)].
Proof.
  split; [|vm_compute; reflexivity]. apply usual_runb_ok. vm_compute. reflexivity.
Qed.
