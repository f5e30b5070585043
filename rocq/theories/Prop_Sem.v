(** C42, C43, C78, C79: the semaphore. *)
From Verif Require Import Base S_Sync M_Sem P_Sem.
Open Scope N_scope.

(** ** C42 *)

(** In every execution of any number of threads, with timeouts, failures and spurious wakeups,
    the calls return what an atomic counting semaphore would return, and the count is its count. *)
Theorem C42_atomic : forall max lossy timed clockfail start n tr s, max < W32 - 1 ->
  run max lossy timed clockfail (sem_init start max n) tr s -> counting max (N.min start max) tr = Some (count s).
Proof.
  intros max lossy timed clockfail start n tr s M R. exact (proj2 (run_count max lossy timed clockfail (sem_init start max n) tr s M (N.le_min_r start max) R)).
Qed.

(** So the count stays within its limits, and waits succeed as often as the initial count and the
    releases allow. *)
Theorem C42_bounds : forall max lossy timed clockfail start n tr s, max < W32 - 1 ->
  run max lossy timed clockfail (sem_init start max n) tr s ->
  count s <= max /\ grants tr + count s = N.min start max + effective max tr.
Proof.
  intros max lossy timed clockfail start n tr s M R. destruct (run_count max lossy timed clockfail (sem_init start max n) tr s M (N.le_min_r start max) R) as [C E].
  split; [exact C|]. pose proof (counting_sum max tr _ _ E (N.le_min_r start max)). cbn [count sem_init] in *. lia.
Qed.

(** Two threads are never both between locking and unlocking. *)
Theorem C42_protected : forall max lossy timed clockfail start n tr s i j p q,
  run max lossy timed clockfail (sem_init start max n) tr s -> nth_error (threads s) i = Some p -> nth_error (threads s) j = Some q ->
  locked p = true -> locked q = true -> i = j.
Proof.
  intros max lossy timed clockfail start n tr s i j p q R Hi Hj Lp Lq. pose proof (run_excl _ _ _ _ _ _ _ _ R) as X.
  pose proof (X i p Hi Lp). pose proof (X j q Hj Lq). congruence.
Qed.

Tactic Notation "go" uconstr(c) := eapply run_front; [eapply c; try reflexivity; try discriminate|cbn].

(** Two threads, one place: the second waits until the first releases. *)
Example C42_ex : exists tr s, run 1 true true true (sem_init 5 1 2) tr s /\ tr = [SGot 0; SReleased 0 0; SGot 1; SFailed 0] /\ count s = 0 /\
  counting 1 1 [SGot 0%nat; SReleased 0%nat 0; SGot 1%nat; SFailed 0%nat] = Some 0 /\ counting 1 1 [SGot 0%nat; SGot 1%nat] = None.
Proof.
  eexists. eexists. split; [|split; [|split; [|split; reflexivity]]].
  - go (s_call 1 true true true _ 0 WForever). go (s_lock 1 true true true _ 0 WForever). go (s_take 1 true true true _ 0 WForever).
    go (s_call 1 true true true _ 1 WForever). go (s_lock 1 true true true _ 1 WForever). go (s_sleep 1 true true true _ 1 WForever).
    go (s_rcall 1 true true true _ 0). go (s_rlock 1 true true true _ 0).
    eapply run_front. { eapply (s_release 1 true true true _ 0 [RInside; Woken WForever true]); [reflexivity|]. split; [repeat constructor|]. intros _. exists 1%nat, WForever. split; reflexivity. } cbn.
    go (s_relock 1 true true true _ 1 WForever true). go (s_granted 1 true true true _ 1 WForever).
    go (s_call 1 true true true _ 0 WNo). go (s_lock 1 true true true _ 0 WNo). go (s_none 1 true true true _ 0). apply run_nil.
  - reflexivity.
  - reflexivity.
Qed.

(** ** C43 *)

(** No wakeup is lost if timeouts use none up, or there are no timed waits: while a thread sleeps,
    the count is no larger than the number of threads that are awake and about to look at it. *)
Theorem C43_cared : forall max lossy timed clockfail start n tr s i w, lossy = false \/ timed = false ->
  run max lossy timed clockfail (sem_init start max n) tr s -> nth_error (threads s) i = Some (Asleep w) ->
  count s <= N.of_nat (List.length (filter (fun p => match p with Woken _ true | Back _ true => true | _ => false end) (threads s))).
Proof.
  intros max lossy timed clockfail start n tr s i w L R E. pose proof (run_cared _ _ _ _ _ _ _ _ L R (ex_intro _ i (ex_intro _ w E))) as C.
  assert (T : forall l, tally awake l = List.length (filter (fun p => match p with Woken _ true | Back _ true => true | _ => false end) l)).
  { induction l as [|p l IH]; [reflexivity|]. cbn [tally fold_right filter]. fold (tally awake l). rewrite IH. destruct p as [| | | |? []|? []| |]; reflexivity. }
  rewrite <- T. exact C.
Qed.

(** So when nothing happens any more, somebody sleeps only if the count is zero. *)
Theorem C43_quiet : forall max lossy timed clockfail start n tr s i w, lossy = false \/ timed = false ->
  run max lossy timed clockfail (sem_init start max n) tr s ->
  (forall j p, nth_error (threads s) j = Some p -> p = Idle \/ exists w, p = Asleep w) ->
  nth_error (threads s) i = Some (Asleep w) -> count s = 0.
Proof.
  intros max lossy timed clockfail start n tr s i w L R Q E. pose proof (run_cared _ _ _ _ _ _ _ _ L R (ex_intro _ i (ex_intro _ w E))) as C.
  rewrite tally_zero in C; [lia|]. intros j p Hj. destruct (Q j p Hj) as [-> |[w' ->]]; reflexivity.
Qed.

(** The property as stated is false where a timeout may use up a wakeup, which POSIX allows: the
    count is one, a thread sleeps without a time limit, and nobody is going to wake it. *)
Theorem C43_refuted : exists tr s, run 1 true true false (sem_init 1 1 3) tr s /\
  count s = 1 /\ held s = None /\ threads s = [Idle; Asleep WForever; Idle].
Proof.
  eexists. eexists. split; [|split; [|split]].
  - go (s_call 1 true true false _ 2 WForever). go (s_lock 1 true true false _ 2 WForever). go (s_take 1 true true false _ 2 WForever).
    go (s_call 1 true true false _ 0 WTimed). go (s_lock 1 true true false _ 0 WTimed). go (s_sleep 1 true true false _ 0 WTimed).
    go (s_call 1 true true false _ 1 WForever). go (s_lock 1 true true false _ 1 WForever). go (s_sleep 1 true true false _ 1 WForever).
    go (s_rcall 1 true true false _ 2). go (s_rlock 1 true true false _ 2).
    eapply run_front. { eapply (s_release 1 true true false _ 2 [Woken WTimed true; Asleep WForever; RInside]); [reflexivity|]. split; [repeat constructor|]. intros _. exists 0%nat, WTimed. split; reflexivity. } cbn.
    go (s_lost 1 true true false _ 0). go (s_relock 1 true true false _ 0 WTimed false). go (s_gaveup 1 true true false _ 0 WTimed). apply run_nil.
  - reflexivity.
  - reflexivity.
  - reflexivity.
Qed.

(** ** C78 *)

(** If the clock can be read, the lock inside is held only by a thread that is in the middle of a
    call and about to give it back. *)
Theorem C78_given_back : forall max lossy timed start n tr s i,
  run max lossy timed false (sem_init start max n) tr s -> held s = Some i -> exists p, nth_error (threads s) i = Some p /\ locked p = true.
Proof. intros max lossy timed start n tr s i R H. exact (run_released _ _ _ _ _ _ _ _ eq_refl R i H). Qed.

(** Otherwise not: after one failure no other call locks any more. *)
Theorem C78_refuted : exists tr s, run 1 false true true (sem_init 0 1 2) tr s /\ threads s = [Idle; Idle] /\ held s = Some 0%nat.
Proof.
  eexists. eexists. split; [|split].
  - go (s_call 1 false true true _ 0 WTimed). go (s_lock 1 false true true _ 0 WTimed). go (s_clock 1 false true true _ 0). apply run_nil.
  - reflexivity.
  - reflexivity.
Qed.

(** Nothing but a return of the holder's call ever frees the lock: no step of an idle holder does. *)
Theorem C78_forever : forall max lossy timed clockfail start n tr s i, run max lossy timed clockfail (sem_init start max n) tr s -> nth_error (threads s) i = Some Idle -> held s = Some i ->
  forall e s', step max lossy timed clockfail s e s' -> held s' = Some i /\ count s' = count s.
Proof.
  intros max lossy timed clockfail start n tr s i R Hi Hh e s' St. pose proof (run_excl _ _ _ _ _ _ _ _ R) as X.
  destruct St; cbn [held count]; try (split; [exact Hh|reflexivity]); try congruence; exfalso;
    match goal with E : nth_error (threads s) ?j = Some ?p |- _ => lazymatch p with Idle => fail | _ => pose proof (X j p E eq_refl) as Y; assert (i = j) by congruence; subst; congruence end end.
Qed.

Example C78_ex : exists tr s, run 1 false true false (sem_init 1 1 1) tr s /\ tr = [SGot 0] /\ held s = None.
Proof.
  eexists. eexists. split; [|split].
  - go (s_call 1 false true false _ 0 WTimed). go (s_lock 1 false true false _ 0 WTimed). go (s_take 1 false true false _ 0 WTimed). apply run_nil.
  - reflexivity.
  - reflexivity.
Qed.

(** ** C79 *)

(** A release never lowers the count, for every maximum but the largest number. *)
Theorem C79_not_lower : forall max lossy timed clockfail start n tr s i e s', max < W32 - 1 ->
  run max lossy timed clockfail (sem_init start max n) tr s -> step max lossy timed clockfail s (Some (SReleased i e)) s' ->
  e = count s /\ count s <= count s' /\ (count s < max -> count s' = count s + 1).
Proof.
  intros max lossy timed clockfail start n tr s i e s' M R St.
  assert (C : count s <= max) by (apply (run_count max lossy timed clockfail (sem_init start max n) tr s M (N.le_min_r start max) R)).
  inversion St; subst. cbn [count]. rewrite bump_ok by assumption. split; [reflexivity|]. lia.
Qed.

(** With the largest number (an initial value of -1) a release sets the count to zero. *)
Theorem C79_refuted : exists tr s, run (W32 - 1) false true false (sem_init (W32 - 1) (W32 - 1) 1) tr s /\ tr = [SReleased 0 (W32 - 1)] /\ count s = 0.
Proof.
  eexists. eexists. split; [|split].
  - eapply (run_front _ _ _ _); [eapply (s_rcall _ _ _ _ _ 0); reflexivity|]. eapply (run_front _ _ _ _); [eapply (s_rlock _ _ _ _ _ 0); reflexivity|].
    eapply run_front; [eapply (s_release _ _ _ _ _ 0 [RInside]); [reflexivity|]; split; [repeat constructor|]; intros [w [X|[]]]; discriminate|]. apply run_nil.
  - reflexivity.
  - reflexivity.
Qed.

Example C79_ex : bump 3 5 = 4 /\ bump 5 5 = 5 /\ bump (W32 - 1) (W32 - 1) = 0.
Proof. vm_compute. repeat split; reflexivity. Qed.

Print Assumptions C42_atomic.
Print Assumptions C42_bounds.
Print Assumptions C42_protected.
Print Assumptions C43_cared.
Print Assumptions C43_quiet.
Print Assumptions C43_refuted.
Print Assumptions C78_given_back.
Print Assumptions C78_refuted.
Print Assumptions C78_forever.
Print Assumptions C79_not_lower.
Print Assumptions C79_refuted.
