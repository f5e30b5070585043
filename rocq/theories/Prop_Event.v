(** C44: the event. *)
From Verif Require Import Base S_Sync M_Sem M_Event P_Sem P_Event.
Open Scope N_scope.

(** In every execution of any number of threads, with timeouts, failures and spurious wakeups,
    waits succeed only when an atomic event would be signaled. *)
Theorem C44_atomic : forall manual giveup sg n tr s, erun manual giveup (event_init sg n) tr s -> signalling manual sg tr = Some (signaled s).
Proof. exact run_signal. Qed.

(** An automatic event satisfies no more waits than it was fired, plus one if it was created
    signaled. *)
Theorem C44_at_most : forall giveup sg n tr s, erun false giveup (event_init sg n) tr s -> satisfied tr + N.b2n (signaled s) <= fires tr + N.b2n sg.
Proof. intros giveup sg n tr s R. exact (signal_count false tr sg (signaled s) eq_refl (run_signal _ _ _ _ _ _ R)). Qed.

(** If no wait is given up, a signaled automatic event on which a thread sleeps has a thread awake
    that is about to take it. *)
Theorem C44_released : forall sg n tr s i w, N.of_nat n < 2 ^ 32 -> erun false false (event_init sg n) tr s ->
  signaled s = true -> nth_error (ethreads s) i = Some (EAsleep w) ->
  exists j w', nth_error (ethreads s) j = Some (EWoken w' true) \/ nth_error (ethreads s) j = Some (EBack w' true).
Proof.
  intros sg n tr s i w Hn R Hs Hi.
  assert (G : persists s /\ counted s /\ ecared s).
  { refine (erun_inv false false (fun s => persists s /\ counted s /\ ecared s) _ _ _ _ _ R).
    - intros s1 e s2 (P & C & K) St. split; [exact (persists_step _ _ _ _ _ eq_refl P St)|]. split; [exact (counted_step _ _ _ _ _ C St)|]. exact (ecared_step _ _ _ _ _ eq_refl P C K St).
    - split; [|split].
      + intros j p E. apply nth_repeat_eidle in E. subst p. exact I.
      + split; [|cbn [event_init ethreads]; rewrite repeat_length; exact Hn]. cbn [event_init ethreads waiting]. rewrite (tally_zero inwait); [reflexivity|]. intros j p E. apply nth_repeat_eidle in E. subst p. reflexivity.
      + intros _ (j & w1 & E). apply nth_repeat_eidle in E. discriminate. }
  destruct G as (_ & _ & K). destruct (K Hs (ex_intro _ i (ex_intro _ w Hi))) as (j & p & Ej & Ep).
  destruct p as [| | | |w1 []|w1 []| | | |]; try discriminate; exists j, w1; [left|right]; exact Ej.
Qed.

(** So once all threads are asleep or outside, a signaled event has no sleepers. *)
Theorem C44_quiet : forall sg n tr s, N.of_nat n < 2 ^ 32 -> erun false false (event_init sg n) tr s ->
  (forall i p, nth_error (ethreads s) i = Some p -> p = EIdle \/ exists w, p = EAsleep w) -> signaled s = true ->
  forall i, nth_error (ethreads s) i = Some EIdle \/ nth_error (ethreads s) i = None.
Proof.
  intros sg n tr s Hn R Q Hs i. destruct (nth_error (ethreads s) i) as [p|] eqn:E; [|right; reflexivity]. destruct (Q i p E) as [->|[w ->]]; [left; reflexivity|].
  exfalso. destruct (C44_released sg n tr s i w Hn R Hs E) as (j & w' & [Ej|Ej]); destruct (Q _ _ Ej) as [X|[w1 X]]; discriminate.
Qed.

(** On a manual event nobody sleeps while it is signaled, timeouts or not. *)
Theorem C44_manual : forall giveup sg n tr s i w, erun true giveup (event_init sg n) tr s -> signaled s = true -> nth_error (ethreads s) i <> Some (EAsleep w).
Proof.
  intros giveup sg n tr s i w R Hs. refine (erun_inv true giveup nosleep _ _ _ _ _ R Hs i w).
  - intros s1 e s2 K St. exact (nosleep_step _ _ _ _ _ eq_refl K St).
  - intros _ j w1 E. apply nth_repeat_eidle in E. discriminate.
Qed.

Tactic Notation "go" uconstr(c) := eapply erun_front; [eapply c; try reflexivity; try discriminate|cbn].

Lemma ne_sig P : ~ (false = true /\ P). Proof. intros [X _]. discriminate. Qed.
Lemma ne_wait n : 0 < n -> ~ (true = true /\ (false = true \/ n = 0)). Proof. intros H [_ [X|X]]; [discriminate|lia]. Qed.

(** Two sleepers, one Fire: one of them is satisfied, and the event is not signaled any more. *)
Example C44_ex : exists tr s, erun false false (event_init false 3) tr s /\ tr = [EFired 2; EGot 1] /\ signaled s = false /\ nth_error (ethreads s) 0 = Some (EAsleep WForever) /\ waiting s = 1.
Proof.
  eexists. eexists. split; [|split; [|split; [|split]]].
  - go (e_call false false _ 0 WForever). go (e_lock false false _ 0 WForever). go (e_sleep false false _ 0 WForever). { apply ne_sig. }
    go (e_call false false _ 1 WForever). go (e_lock false false _ 1 WForever). go (e_sleep false false _ 1 WForever). { apply ne_sig. }
    go (e_fcall false false _ 2). go (e_flock false false _ 2).
    eapply erun_front. { eapply (e_fire_one false false _ 2 [EAsleep WForever; EWoken WForever true; FInside]); [reflexivity|reflexivity|]. split; [repeat constructor|]. intros _. exists 1%nat, WForever. split; reflexivity. } cbn.
    go (e_relock false false _ 1 WForever true). go (e_granted false false _ 1 WForever). apply erun_nil.
  - reflexivity.
  - reflexivity.
  - reflexivity.
  - reflexivity.
Qed.

(** A manual event lets everybody through until it is reset. *)
Example C44_ex2 : exists tr s, erun true true (event_init false 2) tr s /\ tr = [EFired 1; EGot 0; EGot 1; EReset 1; EFailed 0] /\ signaled s = false.
Proof.
  eexists. eexists. split; [|split].
  - go (e_call true true _ 0 WForever). go (e_lock true true _ 0 WForever). go (e_sleep true true _ 0 WForever). { apply ne_sig. }
    go (e_fcall true true _ 1). go (e_flock true true _ 1). go (e_fire_all true true _ 1).
    go (e_relock true true _ 0 WForever true). go (e_granted true true _ 0 WForever).
    go (e_call true true _ 1 WNo). go (e_lock true true _ 1 WNo). go (e_take true true _ 1 WNo). { left; reflexivity. }
    go (e_tcall true true _ 1). go (e_tlock true true _ 1). go (e_reset true true _ 1).
    go (e_call true true _ 0 WNo). go (e_lock true true _ 0 WNo). go (e_none true true _ 0). { apply ne_sig. } apply erun_nil.
  - reflexivity.
  - reflexivity.
Qed.

(** The full claim is false: a thread gives up its wait and is still counted when the event is
    fired.  A thread that then waits forever finds the event signaled, but goes to sleep because of
    that count.  In the end the event is signaled, all threads but that one are outside, and a poll
    fails. *)
Theorem C44_refuted : exists tr s, erun false true (event_init false 3) tr s /\ tr = [EFired 2; EFailed 0; EFailed 2] /\
  signaled s = true /\ ethreads s = [EIdle; EAsleep WForever; EIdle] /\ signalling false false tr = Some true.
Proof.
  eexists. eexists. split; [|split; [|split; [|split]]].
  - go (e_call false true _ 0 WTimed). go (e_lock false true _ 0 WTimed). go (e_sleep false true _ 0 WTimed). { apply ne_sig. }
    go (e_timeout false true _ 0 WTimed).
    go (e_fcall false true _ 2). go (e_flock false true _ 2).
    eapply erun_front. { eapply (e_fire_one false true _ 2 [EWoken WTimed false; EIdle; FInside]); [reflexivity|reflexivity|]. split; [repeat constructor|]. intros [w [X|[X|[X|[]]]]]; discriminate. } cbn.
    go (e_call false true _ 1 WForever). go (e_lock false true _ 1 WForever). go (e_sleep false true _ 1 WForever). { apply ne_wait. reflexivity. }
    go (e_relock false true _ 0 WTimed false). go (e_gaveup false true _ 0 WTimed).
    go (e_call false true _ 2 WNo). go (e_lock false true _ 2 WNo). go (e_none false true _ 2). { apply ne_wait. reflexivity. } apply erun_nil.
  - reflexivity.
  - reflexivity.
  - reflexivity.
  - reflexivity.
Qed.

Print Assumptions C44_atomic. Print Assumptions C44_at_most. Print Assumptions C44_released. Print Assumptions C44_quiet. Print Assumptions C44_manual. Print Assumptions C44_refuted.
