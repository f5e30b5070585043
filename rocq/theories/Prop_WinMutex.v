(** C101: the recursive mutex on Windows.  Model: M_WinMutex. *)
From Verif Require Import Base S_Sync M_Mutex M_WinMutex P_Sem P_Mutex P_WinMutex.
Open Scope N_scope.

(** In every execution in which no thread ends: at most one thread holds the mutex, by whatever
    objects of the same name. *)
Theorem C101_excludes : forall nobj n tr s i o j p, xrun false (wmutex_init nobj n) tr s ->
  (forall tr1 tr2 i o, tr = tr1 ++ tr2 -> mx_depth tr1 i o < 2 ^ 32) ->
  0 < mx_depth tr i o -> 0 < mx_depth tr j p -> i = j.
Proof.
  intros nobj n tr s i o j p R Sh Hi Hj. destruct (xrun_inv nobj n tr s R Sh) as ((_ & _ & B & _) & (_ & En) & Z). rewrite Z in Hi, Hj.
  assert (Q : forall a b, 0 < xdepth s a b -> exists k, xos s = Some (a, k)).
  { intros a b P. unfold xdepth in P. destruct (nth_error (xobjs s) b) as [x|] eqn:E; [|lia]. destruct (xowner x) as [c|] eqn:Ex; [|lia]. destruct (Nat.eqb_spec a c) as [->|]; [|lia].
    destruct (B b x c E Ex) as [X|X]; [destruct (En c X)|exact X]. }
  destruct (Q _ _ Hi) as [k1 E1]. destruct (Q _ _ Hj) as [k2 E2]. congruence.
Qed.
Print Assumptions C101_excludes.

(** Unlock succeeds exactly for a thread that holds the object's lock, and Lock never fails for one. *)
Theorem C101_returns : forall nobj n tr s i o e, xrun false (wmutex_init nobj n) (tr ++ [e]) s ->
  (forall tr1 tr2 i o, tr ++ [e] = tr1 ++ tr2 -> mx_depth tr1 i o < 2 ^ 32) ->
  (forall all, e = MUnlocked i o all -> 0 < mx_depth tr i o) /\ (e = MNotUnlocked i o -> mx_depth tr i o = 0) /\ (e = MNotLocked i o -> mx_depth tr i o = 0).
Proof.
  intros nobj n tr s i o e R Sh. remember (tr ++ [e]) as t eqn:Et. remember (wmutex_init nobj n) as s0 eqn:E0.
  induction R as [s0|s0 tr1 s1 x s2 R IH St]; [destruct tr; discriminate|]. destruct x as [y|].
  - apply app_inj_tail in Et. destruct Et as [-> ->]. subst s0. destruct (xrun_inv nobj n tr s1 R (shallow_app _ _ Sh)) as (V & W & Z).
    assert (Q : forall i o, Some e = Some (MLocked i o) -> xdepth s1 i o + 1 < W32).
    { intros a b E. injection E as ->. rewrite <- Z. specialize (Sh (tr ++ [MLocked a b]) [] a b ltac:(rewrite app_nil_r; reflexivity)). rewrite mx_depth_app in Sh. cbn [mx_depth1] in Sh. rewrite !Nat.eqb_refl in Sh. cbn [andb] in Sh. exact Sh. }
    destruct (xstep_depth s1 (Some e) s2 St V W Q) as (_ & _ & U & N). rewrite Z.
    split; [intros all ->; exact (U i o all eq_refl)|]. split; intros ->; apply N; auto.
  - rewrite app_nil_r in Et, Sh. exact (IH Et E0 Sh).
Qed.
Print Assumptions C101_returns.

(** The mutex is not lost while no thread ends: if nobody holds it and every thread is outside or
    waits, then it is free. *)
Theorem C101_available : forall nobj n tr s, xrun false (wmutex_init nobj n) tr s ->
  (forall tr1 tr2 i o, tr = tr1 ++ tr2 -> mx_depth tr1 i o < 2 ^ 32) ->
  (forall i o, mx_depth tr i o = 0) -> (forall i p, nth_error (xthreads s) i = Some p -> p = XIdle \/ exists o, p = XWait o) -> xos s = None /\ xab s = false.
Proof.
  intros nobj n tr s R Sh H Q. destruct (xrun_inv nobj n tr s R Sh) as ((A & _ & _ & _ & D & _) & (Cn & _) & Z). split; [|exact D].
  destruct (xos s) as [[i k]|]; [exfalso|reflexivity]. destruct A as [A K]. rewrite tally_zero in A.
  - unfold owning in A. destruct (nth_error (xthreads s) i) as [p|] eqn:Ep; [destruct (Q i p Ep) as [->|[o ->]]|]; cbn [lostn] in A; lia.
  - intros o x E. apply ownby_no. intro Ex. specialize (H i o). rewrite Z, (xdepth_at s i o x E), Ex, Nat.eqb_refl in H. pose proof (Cn o x i E Ex). lia.
Qed.
Print Assumptions C101_available.

Tactic Notation "go" uconstr(c) := eapply xrun_front; [eapply c; try reflexivity; try discriminate|cbn].

(** A thread locks twice by one object and once by another of the same name; a second thread gets the
    mutex only after all three unlocks. *)
Example C101_ex : exists tr s, xrun false (wmutex_init 2 2) tr s /\
  tr = [MLocked 0 0; MLocked 0 0; MLocked 0 1; MNotLocked 1 0; MUnlocked 0 0 true; MNotUnlocked 1 1; MUnlocked 0 1 false; MLocked 1 1] /\
  mx_depth (firstn 3 tr) 0 0 = 2 /\ mx_depth (firstn 3 tr) 0 1 = 1 /\ mx_depth tr 1 1 = 1 /\ mx_depth tr 0 0 = 0.
Proof.
  eexists. eexists. split; [|split; [|split; [|split; [|split]]]].
  - go (x_call false _ 0 0). go (x_wait false _ 0 0). go (x_own false _ 0 0). go (x_again false _ 0 0). go (x_call false _ 0 1). go (x_more false _ 0 1). go (x_own false _ 0 1).
    go (x_call false _ 1 0). go (x_nowait false _ 1 0). go (x_free false _ 0 0 true). go (x_notmine false _ 1 1). go (x_call false _ 1 1). go (x_free false _ 0 1 false). go (x_wait false _ 1 1). go (x_own false _ 1 1). apply xrun_nil.
  - reflexivity.
  - reflexivity.
  - reflexivity.
  - reflexivity.
  - reflexivity.
Qed.

(** A thread ends while it holds the mutex.  The next Lock waits successfully but says false, since
    WAIT_ABANDONED is not WAIT_OBJECT_0.  Its thread holds nothing, its Unlock fails, and from then on
    no other thread ever gets the mutex, whatever happens, unless that thread ends as well. *)
Theorem C101_refuted : exists tr0 s, xrun true (wmutex_init 1 3) tr0 s /\ tr0 = [MLocked 0 0; MNotLocked 1 0; MNotUnlocked 1 0] /\
  (forall i, nth_error (xthreads s) i = Some XIdle <-> i = 1%nat \/ i = 2%nat) /\
  forall tr s' i o, xrun false s tr s' -> In (MLocked i o) tr -> i = 1%nat.
Proof.
  eexists. eexists. split; [|split; [|split]].
  - go (x_call true _ 0 0). go (x_wait true _ 0 0). go (x_own true _ 0 0). go (x_call true _ 1 0). go (x_endab true _ 0 1). go (x_abandoned true _ 1 0). go (x_notmine true _ 1 0). apply xrun_nil.
  - reflexivity.
  - cbn. intros [|[|[|[|i]]]]; cbn; (split; [intro E; try discriminate E; auto|intros [E|E]; try discriminate E; reflexivity]).
  - intros tr s' i o R I. refine (proj2 (xrun_lost _ tr s' 1 R _) i o I). unfold xinv. cbn. split; [split; [reflexivity|lia]|].
    split; [intros j E; injection E as <-; exists 1; reflexivity|]. split; [|split; [|split; [reflexivity|]]].
    + intros [|o'] x j E Ex; [|destruct o'; discriminate]. injection E as <-. injection Ex as <-. left. reflexivity.
    + intros [|[|[|[|j]]]] o' E; discriminate.
    + intros [|[|[|[|j]]]] o' x E; discriminate.
Qed.
Print Assumptions C101_refuted.

(** The owner is remembered by the number of its thread.  If a thread ends while it holds the mutex
    and Windows gives its number to a new thread, then the new thread's Lock succeeds without the
    Windows mutex, and two running threads hold the mutex at once. *)
Theorem C101_reuse_refuted : exists tr0 s1 tr s, xrun true (wmutex_init 1 2) tr0 s1 /\ tr0 = [MLocked 0 0] /\ nth_error (xthreads s1) 0 = Some XEnded /\
  xrun true s1 tr s /\ tr = [MNotLocked 1 0; MLocked 0 0; MLocked 1 0] /\ mx_depth tr 0 0 = 1 /\ mx_depth tr 1 0 = 1 /\ xthreads s = [XIdle; XIdle].
Proof.
  eexists. eexists. eexists. eexists. split; [|split; [|split; [|split; [|split; [|split; [|split]]]]]].
  - go (x_call true _ 0 0). go (x_wait true _ 0 0). go (x_own true _ 0 0). go (x_endab true _ 0 1). apply xrun_nil.
  - reflexivity.
  - reflexivity.
  - go (x_start true _ 0). go (x_call true _ 1 0). go (x_abandoned true _ 1 0). go (x_again true _ 0 0). go (x_call true _ 1 0). go (x_more true _ 1 0). go (x_own true _ 1 0). apply xrun_nil.
  - reflexivity.
  - reflexivity.
  - reflexivity.
  - reflexivity.
Qed.
Print Assumptions C101_reuse_refuted.
