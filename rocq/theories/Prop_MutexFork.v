(** C153: named mutexes (POSIX) in processes that fork. *)
From Verif Require Import Base S_Sync S_Fork M_MutexFork P_MutexFork.
Open Scope N_scope.

(** If a process makes others only while it does not hold the mutex, no two processes hold it at the
    same time, whichever processes make others, lock, unlock and end. *)
Theorem C153_excludes : forall n tr s i j, frun (forks_init n) tr s -> forks_free tr -> 0 < fdepth tr i -> 0 < fdepth tr j -> i = j.
Proof. intros n tr s i j R F Hi Hj. destruct (good_run n tr s R F) as (D & _ & U). apply U; rewrite D; lia. Qed.

(** And Unlock says true to the holder only, and Lock and Unlock say false to others only. *)
Theorem C153_returns : forall n tr s i e, frun (forks_init n) (tr ++ [FCall e]) s -> forks_free tr ->
  (forall all, e = MUnlocked i i all -> 0 < fdepth tr i) /\ (e = MNotUnlocked i i -> fdepth tr i = 0) /\ (e = MNotLocked i i -> fdepth tr i = 0).
Proof.
  intros n tr s i e R F. remember (tr ++ [FCall e]) as t eqn:Et. remember (forks_init n) as si eqn:Es. destruct R as [|s0 tr0 s1 e0 s2 R S]; [destruct tr; discriminate|].
  apply app_inj_tail in Et. destruct Et as [-> ->]. rewrite Es in R. destruct (good_run n tr s1 R F) as (D & _ & _).
  assert (C : forall c, nth_error (fprocs s1) i = Some (Some c) -> fdepth tr i = c) by (intros c E; rewrite <- D; unfold cnt; rewrite E; reflexivity).
  split; [|split].
  - intros all ->. inversion S; subst; match goal with H : nth_error _ _ = Some (Some ?c) |- _ => rewrite (C _ H) end; lia.
  - intros ->. inversion S; subst. apply C. assumption.
  - intros ->. inversion S; subst. apply C. assumption.
Qed.

Lemma run2 s tr s1 e1 s2 e2 s3 : frun s tr s1 -> fstep s1 e1 s2 -> fstep s2 e2 s3 -> frun s (tr ++ [e1; e2]) s3.
Proof. intros R A B. replace (tr ++ [e1; e2]) with ((tr ++ [e1]) ++ [e2]) by (rewrite <- app_assoc; reflexivity). apply (frun_step _ _ s2); [apply (frun_step _ _ s1)|]; assumption. Qed.
Lemma holder n tr s i : frun (forks_init n) tr s -> forks_free tr -> 0 < fdepth tr i -> nth_error (fprocs s) i = Some (Some (fdepth tr i)) /\ (i < length (fprocs s))%nat.
Proof.
  intros R F H. destruct (good_run n tr s R F) as (D & _ & _). specialize (D i). unfold cnt in D. destruct (nth_error (fprocs s) i) as [[c|]|] eqn:E; [|lia|lia].
  split; [congruence|]. apply nth_error_Some. congruence.
Qed.
Lemma child s c b : nth_error (fprocs (Forks b (fprocs s ++ [c]))) (length (fprocs s)) = Some c.
Proof. cbn [fprocs]. rewrite nth_error_app2, Nat.sub_diag by lia. reflexivity. Qed.

(** REFUTED: whenever the holder makes another process, the first Lock of that one returns true, and
    both hold the mutex. *)
Theorem C153_refuted : forall n tr s i, frun (forks_init n) tr s -> forks_free tr -> 0 < fdepth tr i ->
  exists j s', i <> j /\ let tr' := tr ++ [FFork i j; FCall (MLocked j j)] in frun (forks_init n) tr' s' /\ 0 < fdepth tr' i /\ 0 < fdepth tr' j.
Proof.
  intros n tr s i R F H. destruct (holder n tr s i R F H) as [E L]. set (j := length (fprocs s)).
  exists j. eexists. split; [unfold j; lia|]. cbv zeta. split; [|split].
  - eapply run2; [exact R|apply (f_fork s i _ E)|]. apply (f_again _ j (fdepth tr i)); [apply child|lia].
  - unfold fdepth. rewrite fold_left_app. cbn [fold_left fdepth1 mx_depth1]. destruct (Nat.eqb_spec i j) as [X|_]; [unfold j in X; lia|]. exact H.
  - unfold fdepth. rewrite fold_left_app. cbn [fold_left fdepth1 mx_depth1]. rewrite Nat.eqb_refl. cbn. lia.
Qed.

(** REFUTED: if the new process does nothing but end, its destructor gives the mutex away: any process
    gets it then, while the holder holds it. *)
Theorem C153_destructor_refuted : forall n tr s i k, frun (forks_init n) tr s -> forks_free tr -> 0 < fdepth tr i -> nth_error (fprocs s) k = Some (Some 0) ->
  exists j s', i <> k /\ let tr' := (tr ++ [FFork i j; FGone j]) ++ [FCall (MLocked k k)] in frun (forks_init n) tr' s' /\ 0 < fdepth tr' i /\ 0 < fdepth tr' k.
Proof.
  intros n tr s i k R F H Ek. destruct (holder n tr s i R F H) as [E L]. set (j := length (fprocs s)).
  assert (Lk : (k < length (fprocs s))%nat) by (apply nth_error_Some; congruence).
  assert (Ne : i <> k) by (intros ->; rewrite E in Ek; injection Ek as X; lia).
  exists j. eexists. split; [exact Ne|]. cbv zeta. split; [|split].
  - eapply frun_step; [eapply run2; [exact R|apply (f_fork s i _ E)|apply (f_destroy _ j (fdepth tr i)); apply child]|].
    apply f_lock.
    + rewrite nth_fput. destruct (Nat.eqb_spec k j) as [X|_]; [unfold j in X; lia|]. cbn [fprocs]. rewrite nth_error_app1 by exact Lk. exact Ek.
    + cbn [favail]. destruct (N.eqb_spec (fdepth tr i) 0) as [X|_]; [lia|reflexivity].
  - rewrite fdepth_snoc. unfold fdepth. rewrite fold_left_app. cbn [fold_left fdepth1 mx_depth1]. destruct (Nat.eqb_spec i j) as [X|_]; [unfold j in X; lia|]. destruct (Nat.eqb_spec i k) as [X|_]; [congruence|]. exact H.
  - rewrite fdepth_snoc. cbn [fdepth1 mx_depth1]. rewrite Nat.eqb_refl. cbn [andb]. lia.
Qed.

(** Process 0 locks, unlocks and makes process 2; process 1 locks, process 2 does not get the mutex. *)
Example C153_ex : let tr := [FCall (MLocked 0 0); FCall (MUnlocked 0 0 false); FFork 0 2; FCall (MLocked 1 1); FCall (MNotLocked 2 2)] in
  frun (forks_init 2) tr (Forks false [Some 0; Some 1; Some 0]) /\ forks_free tr /\ fdepth tr 1 = 1 /\ fdepth tr 2 = 0.
Proof.
  cbv zeta. split; [|split; [|split; reflexivity]].
  - change [FCall (MLocked 0 0); FCall (MUnlocked 0 0 false); FFork 0 2; FCall (MLocked 1 1); FCall (MNotLocked 2 2)]
      with ((((([] ++ [FCall (MLocked 0 0)]) ++ [FCall (MUnlocked 0 0 false)]) ++ [FFork 0 2]) ++ [FCall (MLocked 1 1)]) ++ [FCall (MNotLocked 2 2)]).
    eapply frun_step; [eapply frun_step; [eapply frun_step; [eapply frun_step; [eapply frun_step; [apply frun_nil|]|]|]|]|].
    + apply (f_lock (forks_init 2) 0); reflexivity.
    + apply (f_free (Forks false [Some 1; Some 0]) 0 1 false); [reflexivity|discriminate|right; reflexivity].
    + apply (f_fork (Forks true [Some 0; Some 0]) 0 0). reflexivity.
    + apply (f_lock (Forks true [Some 0; Some 0; Some 0]) 1); reflexivity.
    + apply (f_notlocked (Forks false [Some 0; Some 1; Some 0]) 2). reflexivity.
  - intros tr1 i j tr2 E. destruct tr1 as [|a [|b [|c [|d [|e tr1]]]]]; try discriminate; [injection E as <- <- <- <-; reflexivity|].
    cbn [app] in E. injection E as _ _ _ _ _ E. destruct tr1; discriminate.
Qed.

Print Assumptions C153_excludes.
Print Assumptions C153_returns.
Print Assumptions C153_refuted.
Print Assumptions C153_destructor_refuted.
