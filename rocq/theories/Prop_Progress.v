(** C130: calls on a reader-writer lock wait only for threads that hold it.
    C131: a writer that waits is not overtaken. *)
From Verif Require Import Base S_Sync M_Sem M_RW M_WinRW P_Sem P_RW P_WinRW P_Progress.
Open Scope N_scope.

(** [steps on k s s']: [k] steps, one after the other. *)
Inductive steps {A E : Type} (on : A -> E -> A -> Prop) : nat -> A -> A -> Prop :=
  | st_nil s : steps on 0 s s
  | st_one k s s1 e s2 : steps on k s s1 -> on s1 e s2 -> steps on (S k) s s2.

(** Left alone, the threads inside calls go on for at most six steps each: there is no endless
    running without a result. *)
Theorem C130_ends : forall k s s', steps goes_on k s s' -> (k <= 6 * length (xthreads s))%nat.
Proof.
  intros k s s' R. assert (H : (k + tally work (xthreads s') <= tally work (xthreads s))%nat).
  { induction R as [s|k s s1 e s2 R IH St]; [lia|]. pose proof (goes_less _ _ _ St). lia. }
  assert (B : forall l, (tally work l <= 6 * length l)%nat) by (induction l as [|p l IH]; [cbn; lia|]; cbn [tally fold_right length]; unfold tally in IH; destruct p; cbn [work]; lia).
  specialize (B (xthreads s)). lia.
Qed.
Theorem C130_win_ends : forall k s s', steps ygoes_on k s s' -> (k <= 6 * length (ythreads s))%nat.
Proof.
  intros k s s' R. assert (H : (k + tally ywork (ythreads s') <= tally ywork (ythreads s))%nat).
  { induction R as [s|k s s1 e s2 R IH St]; [lia|]. pose proof (ygoes_less _ _ _ St). lia. }
  assert (B : forall l, (tally ywork l <= 6 * length l)%nat) by (induction l as [|p l IH]; [cbn; lia|]; cbn [tally fold_right length]; unfold tally in IH; destruct p; cbn [ywork]; lia).
  specialize (B (ythreads s)). lia.
Qed.

(** When nobody can go on: every thread is outside, or waits to enter while some thread has the
    lock, or is a writer that has entered and waits while some thread has the lock for reading.  A
    call of ReadUnlock or WriteUnlock never waits for ever. *)
Theorem C130_waits : forall n tr s, xrun false (rw_init n) tr s -> disciplined tr ->
  (forall tr1 tr2, tr = tr1 ++ tr2 -> outstanding tr1 + N.of_nat n < 2 ^ 32) -> (forall e s', ~ goes_on s e s') ->
  forall i p, at_ s i p -> p <> XIdle ->
  ((p = R1 \/ p = W1) /\ exists j, 0 < writing tr j \/ 0 < reading tr j) \/ (p = W2 /\ exists j, 0 < reading tr j).
Proof.
  intros n tr s R D W K i p A NI. destruct (stuck_waits n tr s (xrun_inv false n tr s R D W) K) as (Q & Q2 & Q1).
  destruct (Q i p A) as [->|[->|[->| ->]]]; [congruence| | |right; split; [reflexivity|exact (Q2 i A)]].
  all: left; split; [auto|]; destruct (Q1 i ltac:(auto)) as [[j Hj]|[j Hj]]; [exists j; left; exact Hj|destruct (Q2 j Hj) as [k Hk]; exists k; right; exact Hk].
Qed.
Theorem C130_win_waits : forall n tr s, yrun false (wr_init n) tr s -> disciplined tr -> outstanding tr < LONG_MAX -> (forall e s', ~ ygoes_on s e s') ->
  forall i p, yat s i p -> p <> YIdle ->
  ((p = Y1 \/ p = Z1) /\ exists j, 0 < writing tr j \/ 0 < reading tr j) \/ (p = Z2 /\ exists j, 0 < reading tr j).
Proof.
  intros n tr s R D W K i p A NI. destruct (ystuck_waits n tr s (yrun_inv false n tr s R D) K W) as (Q & Q2 & Q1).
  destruct (Q i p A) as [->|[->|[->| ->]]]; [congruence| | |right; split; [reflexivity|exact (Q2 i A)]].
  all: left; split; [auto|]; destruct (Q1 i ltac:(auto)) as [[j Hj]|[j Hj]]; [exists j; left; exact Hj|destruct (Q2 j Hj) as [k Hk]; exists k; right; exact Hk].
Qed.

Tactic Notation "go" uconstr(c) := eapply (xrun_front false _ None); [eapply c; try reflexivity; try constructor|cbn].
Tactic Notation "ygo" uconstr(c) := eapply (yrun_front false _ None); [eapply c; try reflexivity; try constructor|cbn].

(** A reader has the lock, a writer has entered, another reader waits to enter: nobody can go on. *)
Example C130_ex : exists s, xrun false (rw_init 3) [RGot 0] s /\ at_ s 1 W2 /\ at_ s 2 R1 /\ forall e s', ~ goes_on s e s'.
Proof.
  exists (RWLock false true 1 false [XIdle; W2; R1]). split; [|split; [reflexivity|split; [reflexivity|]]].
  - go (x_rcall false _ 0). go (x_r1 false _ 0). go (x_r2 false _ 0). go (x_r3 false _ 0). go (x_r4 false _ 0). go (x_r5 false _ 0 true).
    eapply (xrun_front false _ (Some (RGot 0))); [eapply (x_r6 false _ 0 true); [reflexivity|constructor]|]. cbn. go (x_wcall false _ 1). go (x_w1 false _ 1). go (x_rcall false _ 2). apply xrun_nil.
  - intros e s' [St G]. inversion St; subst; unfold at_ in *; cbn [xthreads ww rc sig] in *; try discriminate;
      match goal with Ha : nth_error _ ?k = Some _ |- _ => destruct k as [|[|[|k]]]; cbn in Ha; try discriminate Ha; try (destruct k; discriminate Ha) end.
    all: unfold xput in G; cbn [xthreads upd] in G.
    all: try (specialize (G 0%nat _ _ eq_refl eq_refl); destruct G as [G _]; discriminate (G eq_refl)).
    all: try (specialize (G 1%nat _ _ eq_refl eq_refl); destruct G as [_ G]; exact (G I)).
    all: try (specialize (G 2%nat _ _ eq_refl eq_refl); destruct G as [_ G]; exact (G I)).
Qed.

(** On Windows with LONG_MAX read locks out a reader waits for one more with the counter's mutex in
    its hands, so that ReadUnlock waits for it: neither ever goes on, and the one thread that has
    the lock is the one that tries to give it back. *)
Lemma many_reads : forall k, (k <= LONG_MAX) -> yrun false (wr_init 2) (repeat (RGot 1) (N.to_nat k)) (WRLock true true (LONG_MAX - k) (k =? 0) [YIdle; YIdle]).
Proof.
  intros k. induction k as [|k IH] using N.peano_ind; intro L; [apply yrun_nil|].
  rewrite N2Nat.inj_succ. replace (repeat (RGot 1) (S (N.to_nat k))) with (repeat (RGot 1) (N.to_nat k) ++ [RGot 1]) by (rewrite <- repeat_cons; reflexivity).
  eapply yrun_app; [apply IH; lia|]. remember (LONG_MAX - k) as r eqn:Er. remember (k =? 0) as z eqn:Ez.
  replace (LONG_MAX - N.succ k) with (r - 1) by lia. replace (N.succ k =? 0) with false by (symmetry; apply N.eqb_neq; lia). ygo (y_rcall false _ 1). ygo (y_1 false _ 1). ygo (y_2 false _ 1).
  eapply (yrun_front false _ None); [eapply (y_3 false _ 1); [reflexivity|cbn [yrs]; lia]|]. cbn. ygo (y_4 false _ 1). ygo (y_5 false _ 1 true).
  eapply (yrun_front false _ (Some (RGot 1))); [eapply (y_6 false _ 1 true); [reflexivity|constructor]|]. cbn [yww yrm yrs ysig ythreads yput upd]. apply yrun_nil.
Qed.
Lemma reading_many k i : reading (repeat (RGot i) k) i = N.of_nat k.
Proof.
  induction k as [|k IH]; [reflexivity|]. replace (repeat (RGot i) (S k)) with (repeat (RGot i) k ++ [RGot i]) by (rewrite <- repeat_cons; reflexivity).
  rewrite reading_app, IH. cbn [rw_read1]. rewrite Nat.eqb_refl. lia.
Qed.

Theorem C130_win_full_refuted : exists tr s, yrun false (wr_init 2) tr s /\ disciplined tr /\ (forall i, writing tr i = 0) /\
  yat s 0 Y3 /\ yat s 1 T1 /\ (forall e s', ~ ygoes_on s e s').
Proof.
  exists (repeat (RGot 1) (N.to_nat LONG_MAX) ++ [RUnlock 1]), (WRLock false false 0 false [Y3; T1]). split; [|split; [|split; [|split; [reflexivity|split; [reflexivity|]]]]].
  - eapply yrun_app; [apply many_reads; lia|]. rewrite N.sub_diag. change (LONG_MAX =? 0) with false.
    ygo (y_rcall false _ 0). ygo (y_1 false _ 0). ygo (y_2 false _ 0). eapply (yrun_front false _ (Some (RUnlock 1))); [eapply (y_ucall false _ 1); reflexivity|]. cbn. apply yrun_nil.
  - intros t1 e t2 E. destruct e as [j|j|j|j|j|j|j]; try exact I.
    + assert (H : forall a, a ++ RUnlock j :: t2 = repeat (RGot 1) (N.to_nat LONG_MAX) ++ [RUnlock 1] -> a = repeat (RGot 1) (N.to_nat LONG_MAX) /\ j = 1%nat).
      { clear. generalize (N.to_nat LONG_MAX) as k. induction k as [|k IH]; intros a E.
        - destruct a as [|x a]; cbn in E; [injection E as -> _; auto|]. injection E as _ E. destruct a; discriminate.
        - destruct a as [|x a]; cbn [app repeat] in E; [discriminate|]. injection E as -> E. destruct (IH a E) as [-> ->]. auto. }
      destruct (H t1 (eq_sym E)) as [-> ->]. rewrite reading_many. rewrite N2Nat.id. reflexivity.
    + exfalso. assert (H : In (WUnlock j) (repeat (RGot 1) (N.to_nat LONG_MAX) ++ [RUnlock 1])) by (rewrite E; apply in_or_app; right; left; reflexivity).
      apply in_app_or in H. destruct H as [H|[H|[]]]; [apply repeat_spec in H; discriminate|discriminate].
  - intro i. rewrite writing_app. cbn [rw_write1]. generalize (N.to_nat LONG_MAX) as k. induction k as [|k IH]; [reflexivity|].
    replace (repeat (RGot 1) (S k)) with (repeat (RGot 1) k ++ [RGot 1]) by (rewrite <- repeat_cons; reflexivity). rewrite writing_app. exact IH.
  - intros e s' [St G]. inversion St; subst; unfold yat in *; cbn [ythreads yww yrm yrs ysig] in *; try discriminate;
      match goal with Ha : nth_error _ ?k = Some _ |- _ => destruct k as [|[|k]]; cbn in Ha; try discriminate Ha; try (destruct k; discriminate Ha) end.
    all: unfold yput in G; cbn [ythreads upd] in G.
    all: try lia.
    all: try (specialize (G 0%nat _ _ eq_refl eq_refl); destruct G as [_ G]; exact (G I)).
Qed.

(** ** C131 *)
(** Once a writer has entered (and waits for the readers that are left), nobody else gets the lock,
    for reading or writing, before its call returns. *)
Theorem C131_next : forall errors n tr s i t s', xrun errors (rw_init n) tr s -> at_ s i W2 -> xrun errors s t s' -> disciplined (tr ++ t) ->
  (forall tr1 tr2, tr ++ t = tr1 ++ tr2 -> outstanding tr1 + N.of_nat n < 2 ^ 32) -> ~ In (WGot i) t -> ~ In (WNot i) t ->
  forall j, ~ In (RGot j) t /\ ~ In (WGot j) t.
Proof.
  intros er n tr s i t s' R A R2 D W NG NN.
  assert (X : waiting s' i /\ forall j, ~ In (RGot j) t /\ ~ In (WGot j) t); [|exact (proj2 X)].
  induction R2 as [s|s t s1 e s2 R2 IH St].
  - split; [left; exact A|]. intro j. split; intros [].
  - destruct IH as [Wt No]; try assumption.
    + rewrite app_assoc in D. exact (disciplined_app _ _ D).
    + intros t1 t2 E. apply (W t1 (t2 ++ match e with Some x => [x] | None => [] end)). rewrite app_assoc, E, <- app_assoc. reflexivity.
    + intro H. apply NG, in_or_app. left. exact H.
    + intro H. apply NN, in_or_app. left. exact H.
    + assert (V : xinv er n (tr ++ t) s1).
      { apply xrun_inv; [exact (xrun_app _ _ _ _ _ _ R R2)|rewrite app_assoc in D; exact (disciplined_app _ _ D)|].
        intros t1 t2 E. apply (W t1 (t2 ++ match e with Some x => [x] | None => [] end)). rewrite app_assoc, E, <- app_assoc. reflexivity. }
      destruct (wait_step er n (tr ++ t) s1 e s2 i V St Wt) as [Wt2 No2].
      * intros ->. apply NG, in_or_app. right. left. reflexivity.
      * intros ->. apply NN, in_or_app. right. left. reflexivity.
      * split; [exact Wt2|]. intro j. destruct (No j) as [N1 N2]. destruct (No2 j) as [M1 M2].
        split; intro H; apply in_app_or in H; (destruct H as [H|H]; [auto|]); destruct e as [x|]; (destruct H as [H|[]] || destruct H); congruence.
Qed.
Theorem C131_win_next : forall errors n tr s i t s', yrun errors (wr_init n) tr s -> yat s i Z2 -> yrun errors s t s' -> disciplined (tr ++ t) ->
  ~ In (WGot i) t -> ~ In (WNot i) t -> forall j, ~ In (RGot j) t /\ ~ In (WGot j) t.
Proof.
  intros er n tr s i t s' R A R2 D NG NN.
  assert (X : ywaiting s' i /\ forall j, ~ In (RGot j) t /\ ~ In (WGot j) t); [|exact (proj2 X)].
  induction R2 as [s|s t s1 e s2 R2 IH St].
  - split; [left; exact A|]. intro j. split; intros [].
  - destruct IH as [Wt No]; try assumption.
    + rewrite app_assoc in D. exact (disciplined_app _ _ D).
    + intro H. apply NG, in_or_app. left. exact H.
    + intro H. apply NN, in_or_app. left. exact H.
    + assert (V : yinv er n (tr ++ t) s1) by (apply yrun_inv; [exact (yrun_app _ _ _ _ _ _ R R2)|rewrite app_assoc in D; exact (disciplined_app _ _ D)]).
      destruct (ywait_step er n (tr ++ t) s1 e s2 i V St Wt) as [Wt2 No2].
      * intros ->. apply NG, in_or_app. right. left. reflexivity.
      * intros ->. apply NN, in_or_app. right. left. reflexivity.
      * split; [exact Wt2|]. intro j. destruct (No j) as [N1 N2]. destruct (No2 j) as [M1 M2].
        split; intro H; apply in_app_or in H; (destruct H as [H|H]; [auto|]); destruct e as [x|]; (destruct H as [H|[]] || destruct H); congruence.
Qed.

(** A writer that has entered; a reader that came later gives up, the one inside leaves, the writer gets the lock. *)
Example C131_ex : exists s s', xrun false (rw_init 3) [RGot 0] s /\ at_ s 1 W2 /\ xrun false s [RNot 2; RUnlock 0; RPut 0; WGot 1] s'.
Proof.
  exists (RWLock false true 1 false [XIdle; W2; R1]), (RWLock false true 0 true [XIdle; XIdle; XIdle]). split; [|split; [reflexivity|]].
  - go (x_rcall false _ 0). go (x_r1 false _ 0). go (x_r2 false _ 0). go (x_r3 false _ 0). go (x_r4 false _ 0). go (x_r5 false _ 0 true).
    eapply (xrun_front false _ (Some (RGot 0))); [eapply (x_r6 false _ 0 true); [reflexivity|constructor]|]. cbn. go (x_wcall false _ 1). go (x_w1 false _ 1). go (x_rcall false _ 2). apply xrun_nil.
  - eapply (xrun_front false _ (Some (RNot 2))); [eapply (x_r1no false _ 2); reflexivity|]. cbn. eapply (xrun_front false _ (Some (RUnlock 0))); [eapply (x_ucall false _ 0); reflexivity|]. cbn. go (x_u1 false _ 0).
    eapply (xrun_front false _ (Some (RPut 0))); [eapply (x_u2 false _ 0); [reflexivity|cbn; discriminate]|]. cbn. go (x_u3fire false _ 0). go (x_u5 false _ 0 true).
    eapply (xrun_front false _ (Some (WGot 1))); [eapply (x_w2 false _ 1); reflexivity|]. cbn. apply xrun_nil.
Qed.

(** But before it has entered: a writer has called WriteLock and never gives up; afterwards a
    reader comes and gets the lock any number of times, and the writer still waits. *)
Theorem C131_overtaken_refuted : forall k, exists s s', xrun false (rw_init 2) [] s /\ at_ s 0 W1 /\
  xrun false s (concat (repeat [RGot 1; RUnlock 1; RPut 1] k)) s' /\ at_ s' 0 W1.
Proof.
  intro k. set (s := RWLock true true 0 true [W1; XIdle]). exists s, s. split; [|split; [reflexivity|split; [|reflexivity]]].
  - go (x_wcall false _ 0). apply xrun_nil.
  - induction k as [|k IH]; [apply xrun_nil|]. cbn [repeat concat]. eapply xrun_app; [|exact IH].
    unfold s.
    go (x_rcall false _ 1). go (x_r1 false _ 1). go (x_r2 false _ 1). go (x_r3 false _ 1). go (x_r4 false _ 1). go (x_r5 false _ 1 true).
    eapply (xrun_front false _ (Some (RGot 1))); [eapply (x_r6 false _ 1 true); [reflexivity|constructor]|]. cbn.
    eapply (xrun_front false _ (Some (RUnlock 1))); [eapply (x_ucall false _ 1); reflexivity|]. cbn. go (x_u1 false _ 1).
    eapply (xrun_front false _ (Some (RPut 1))); [eapply (x_u2 false _ 1); [reflexivity|cbn; discriminate]|]. cbn. go (x_u3fire false _ 1). go (x_u5 false _ 1 true). apply xrun_nil.
Qed.
Theorem C131_win_overtaken_refuted : forall k, exists s s', yrun false (wr_init 2) [] s /\ yat s 0 Z1 /\
  yrun false s (concat (repeat [RGot 1; RUnlock 1; RPut 1] k)) s' /\ yat s' 0 Z1.
Proof.
  intro k. set (s := WRLock true true LONG_MAX true [Z1; YIdle]). exists s, s. split; [|split; [reflexivity|split; [|reflexivity]]].
  - ygo (y_wcall false _ 0). apply yrun_nil.
  - induction k as [|k IH]; [apply yrun_nil|]. cbn [repeat concat]. eapply yrun_app; [|exact IH].
    unfold s.
    ygo (y_rcall false _ 1). ygo (y_1 false _ 1). ygo (y_2 false _ 1). eapply (yrun_front false _ None); [eapply (y_3 false _ 1); reflexivity|]. cbn. ygo (y_4 false _ 1). ygo (y_5 false _ 1 true).
    eapply (yrun_front false _ (Some (RGot 1))); [eapply (y_6 false _ 1 true); [reflexivity|constructor]|]. cbn.
    eapply (yrun_front false _ (Some (RUnlock 1))); [eapply (y_ucall false _ 1); reflexivity|]. cbn. ygo (y_u1 false _ 1).
    eapply (yrun_front false _ (Some (RPut 1))); [eapply (y_u2 false _ 1); reflexivity|]. cbn. ygo (y_u3fire false _ 1). ygo (y_u5 false _ 1 true). apply yrun_nil.
Qed.

Print Assumptions C130_ends. Print Assumptions C130_win_ends. Print Assumptions C130_waits. Print Assumptions C130_win_waits. Print Assumptions C130_win_full_refuted.
Print Assumptions C131_next. Print Assumptions C131_win_next. Print Assumptions C131_overtaken_refuted. Print Assumptions C131_win_overtaken_refuted.
