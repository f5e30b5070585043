(** C45: the reader-writer lock. *)
From Verif Require Import Base S_Sync M_Sem M_RW P_Sem P_RW.
Open Scope N_scope.

(** In every execution of any number of threads, failures and timeouts included, in which only
    holders unlock and fewer than 2^32 read locks are out at any time: while a thread holds the lock
    for writing, it holds it once, nobody else holds it for writing, and nobody for reading. *)
Theorem C45_excludes : forall errors n tr s i, xrun errors (rw_init n) tr s -> disciplined tr ->
  (forall tr1 tr2, tr = tr1 ++ tr2 -> outstanding tr1 + N.of_nat n < 2 ^ 32) ->
  0 < writing tr i -> writing tr i = 1 /\ (forall j, 0 < writing tr j -> j = i) /\ (forall j, reading tr j = 0).
Proof.
  intros errors n tr s i R Ds W Hi. destruct (xrun_inv errors n tr s R Ds W) as (_ & A & _ & C & C2 & _ & F & _).
  assert (T : forall k, 0 < writing tr k -> (k < n)%nat). { intros k Hk. destruct (Nat.lt_ge_cases k n) as [|G]; [assumption|]. destruct (xrun_threads errors n tr s k R G) as [_ Z]. lia. }
  pose proof (sumto_in n (writing tr) i (T i Hi)) as Si. split; [lia|]. split.
  - intros j Hj. destruct (Nat.eq_dec j i) as [E|Ne]; [exact E|]. pose proof (sumto_two n (writing tr) i j (T i Hi) (T j Hj) ltac:(congruence)). lia.
  - intro j. destruct (Nat.lt_ge_cases j n) as [Lj|G]; [|exact (proj1 (xrun_threads errors n tr s j R G))]. specialize (F ltac:(lia)). pose proof (sumto_in n (reading tr) j Lj). lia.
Qed.

(** Unless a call fails for other reasons than time, the lock is not lost: if nobody holds it and all
    threads are outside, both semaphores are available and the event is signaled, so that any lock
    call succeeds. *)
Theorem C45_available : forall n tr s, xrun false (rw_init n) tr s -> disciplined tr ->
  (forall tr1 tr2, tr = tr1 ++ tr2 -> outstanding tr1 + N.of_nat n < 2 ^ 32) ->
  (forall i, reading tr i = 0 /\ writing tr i = 0) -> (forall i p, nth_error (xthreads s) i = Some p -> p = XIdle) ->
  ww s = true /\ rc s = true /\ sig s = true /\ rcount s = 0.
Proof.
  intros n tr s R Ds W Z Q. destruct (xrun_inv false n tr s R Ds W) as (_ & _ & _ & C & _ & _ & _ & E). destruct (E eq_refl) as (E1 & E2 & E3 & E4).
  assert (T : forall f, f XIdle = O -> tally f (xthreads s) = O) by (intros f Hf; apply tally_zero; intros i p Hp; rewrite (Q i p Hp); exact Hf).
  rewrite (T hasww eq_refl) in E1. rewrite (T hasrc eq_refl) in E2. rewrite (T upre eq_refl) in E3. rewrite (T turn eq_refl) in E4. rewrite (T pend eq_refl) in C.
  rewrite (sumto_zero n (writing tr)) in E1 by (intro; apply Z). rewrite (sumto_zero n (reading tr)) in E3 by (intro; apply Z).
  assert (R0 : rcount s = 0) by lia. destruct (E4 R0) as [S|S]; [|lia]. destruct (ww s); [|cbn in E1; lia]. destruct (rc s); [|cbn in E2; lia]. auto.
Qed.

(** While no writer has or awaits the lock, a reader gets in whatever other readers hold. *)
Theorem C45_shared : forall n tr s i, xrun false (rw_init n) tr s -> disciplined tr ->
  (forall tr1 tr2, tr = tr1 ++ tr2 -> outstanding tr1 + N.of_nat n < 2 ^ 32) ->
  (forall i, writing tr i = 0) -> (forall i p, nth_error (xthreads s) i = Some p -> p = XIdle) -> (i < n)%nat ->
  exists s', xrun false (rw_init n) (tr ++ [RGot i]) s' /\ forall j, reading (tr ++ [RGot i]) j = reading tr j + (if Nat.eqb j i then 1 else 0).
Proof.
  intros n tr s i R Ds W Z Q Hi. destruct (xrun_inv false n tr s R Ds W) as (L & _ & _ & C & _ & _ & _ & E). destruct (E eq_refl) as (E1 & E2 & _ & _).
  assert (T : forall f, f XIdle = O -> tally f (xthreads s) = O) by (intros f Hf; apply tally_zero; intros k p Hp; rewrite (Q k p Hp); exact Hf).
  rewrite (T hasww eq_refl) in E1. rewrite (T hasrc eq_refl) in E2. rewrite (sumto_zero n (writing tr)) in E1 by exact Z.
  assert (Hw : ww s = true) by (destruct (ww s); [reflexivity|cbn in E1; lia]). assert (Hr : rc s = true) by (destruct (rc s); [reflexivity|cbn in E2; lia]).
  assert (Hp : nth_error (xthreads s) i = Some XIdle). { destruct (nth_error (xthreads s) i) as [p|] eqn:Ep; [rewrite (Q i p Ep); reflexivity|]. apply nth_error_None in Ep. lia. }
  assert (U : forall l (p q : rwpc), nth_error l i = Some p -> nth_error (upd l i q) i = Some q) by (intros l p q El; rewrite nth_upd; destruct (Nat.eq_dec i i); [rewrite El; reflexivity|congruence]).
  eexists. split.
  - eapply (xrun_step false _ _ _ (Some (RGot i))).
    + rewrite <- (app_nil_r tr). eapply (xrun_step false _ _ _ None).
      * rewrite <- (app_nil_r tr). eapply (xrun_step false _ _ _ None).
        -- rewrite <- (app_nil_r tr). eapply (xrun_step false _ _ _ None).
           ++ rewrite <- (app_nil_r tr). eapply (xrun_step false _ _ _ None).
              ** rewrite <- (app_nil_r tr). eapply (xrun_step false _ _ _ None).
                 { rewrite <- (app_nil_r tr). eapply (xrun_step false _ _ _ None); [exact R|]. apply (x_rcall false s i Hp). }
                 { apply (x_r1 false _ i); [exact (U _ _ _ Hp)|exact Hw]. }
              ** apply (x_r2 false _ i); [eapply U, U, Hp|exact Hr].
           ++ apply (x_r3 false _ i). eapply U, U, U, Hp.
        -- apply (x_r4 false _ i). eapply U, U, U, U, Hp.
      * apply (x_r5 false _ i true); [eapply U, U, U, U, U, Hp|constructor].
    + apply (x_r6 false _ i true); [eapply U, U, U, U, U, U, Hp|constructor].
  - intro j. rewrite reading_app. cbn [rw_read1]. destruct (Nat.eqb j i); lia.
Qed.

Tactic Notation "go" uconstr(c) := eapply xrun_front; [eapply c; try reflexivity; try constructor|cbn].

(** Two readers at once, a writer that has to wait for both. *)
Example C45_ex : exists tr s, xrun false (rw_init 3) tr s /\ tr = [RGot 0; RGot 1; WNot 2; RUnlock 0; RPut 0; RUnlock 1; RPut 1; WGot 2] /\
  reading (firstn 2 tr) 0 = 1 /\ reading (firstn 2 tr) 1 = 1 /\ writing tr 2 = 1 /\ outstanding (firstn 3 tr) = 2.
Proof.
  eexists. eexists. split; [|split; [|split; [|split; [|split]]]].
  - go (x_rcall false _ 0). go (x_r1 false _ 0). go (x_r2 false _ 0). go (x_r3 false _ 0). go (x_r4 false _ 0). go (x_r5 false _ 0 true). go (x_r6 false _ 0 true).
    go (x_rcall false _ 1). go (x_r1 false _ 1). go (x_r2 false _ 1). go (x_r3 false _ 1). go (x_r4 false _ 1). go (x_r5 false _ 1 true). go (x_r6 false _ 1 true).
    go (x_wcall false _ 2). go (x_w1 false _ 2). go (x_w2no false _ 2). go (x_w2x false _ 2 true).
    go (x_wcall false _ 2). go (x_w1 false _ 2).
    go (x_ucall false _ 0). go (x_u1 false _ 0). eapply xrun_front. { eapply (x_u2 false _ 0); [reflexivity|discriminate]. } cbn. eapply xrun_front. { eapply (x_u3 false _ 0); [reflexivity|discriminate]. } cbn. go (x_u5 false _ 0 true).
    go (x_ucall false _ 1). go (x_u1 false _ 1). eapply xrun_front. { eapply (x_u2 false _ 1); [reflexivity|discriminate]. } cbn. go (x_u3fire false _ 1). go (x_u5 false _ 1 true).
    go (x_w2 false _ 2). apply xrun_nil.
  - reflexivity.
  - reflexivity.
  - reflexivity.
  - reflexivity.
  - reflexivity.
Qed.

(** Nothing checks who unlocks: a thread that holds nothing calls WriteUnlock, and two threads hold
    the lock for writing. *)
Theorem C45_unchecked : exists tr s, xrun false (rw_init 3) tr s /\ tr = [WGot 0; WUnlock 1; WGot 2] /\ writing tr 0 = 1 /\ writing tr 2 = 1 /\ ~ disciplined tr.
Proof.
  eexists. eexists. split; [|split; [|split; [|split]]].
  - go (x_wcall false _ 0). go (x_w1 false _ 0). go (x_w2 false _ 0). go (x_vcall false _ 1). go (x_v1 false _ 1 true). go (x_wcall false _ 2). go (x_w1 false _ 2). go (x_w2 false _ 2). apply xrun_nil.
  - reflexivity.
  - reflexivity.
  - reflexivity.
  - intro Ds. specialize (Ds [WGot 0] (WUnlock 1) [WGot 2] eq_refl). vm_compute in Ds. discriminate.
Qed.

Print Assumptions C45_excludes. Print Assumptions C45_available. Print Assumptions C45_shared. Print Assumptions C45_unchecked.
