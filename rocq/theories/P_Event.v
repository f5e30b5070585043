(** Proofs about the event. *)
From Verif Require Import Base S_Sync M_Sem M_Event P_Sem.
Open Scope N_scope.

Definition elocked (p : epc) : bool := match p with EInside _ | EBack _ _ | FInside | TInside => true | _ => false end.
Definition inwait (p : epc) : nat := match p with EAsleep _ | EWoken _ _ | EBack _ _ => 1%nat | _ => O end.
Definition eawake (p : epc) : nat := match p with EWoken _ true | EBack _ true => 1%nat | _ => O end.

Lemma ewakes_nth l l' i q : Forall2 ewoken1 l l' -> nth_error l' i = Some q -> exists p, nth_error l i = Some p /\ ewoken1 p q.
Proof.
  intros F. revert i. induction F as [|x y l l' W F IH]; intros [|i] E; try discriminate; cbn [nth_error] in *; [injection E as <-; eauto|exact (IH i E)].
Qed.

Lemma ewakes_nth' l l' i p : Forall2 ewoken1 l l' -> nth_error l i = Some p -> exists q, nth_error l' i = Some q /\ ewoken1 p q.
Proof.
  intros F. revert i. induction F as [|x y l l' W F IH]; intros [|i] E; try discriminate; cbn [nth_error] in *; [injection E as <-; eauto|exact (IH i E)].
Qed.

Lemma wake_all_2 l : Forall2 ewoken1 l (wake_all l).
Proof. induction l as [|p l IH]; [constructor|]. cbn [wake_all map]. constructor; [destruct p; constructor|exact IH]. Qed.

Lemma ewoken_inwait l l' : Forall2 ewoken1 l l' -> tally inwait l' = tally inwait l.
Proof. induction 1 as [|x y l l' W F IH]; [reflexivity|]. cbn [tally fold_right]. unfold tally in IH. rewrite IH. destruct W; reflexivity. Qed.

Lemma tally_len {A} (f : A -> nat) l : (forall a, f a <= 1)%nat -> (tally f l <= length l)%nat.
Proof. intro H. induction l as [|x l IH]; [cbn; lia|]. cbn [tally fold_right length]. specialize (H x). unfold tally in IH. lia. Qed.

Lemma Forall2_len {A B} (R : A -> B -> Prop) l l' : Forall2 R l l' -> length l' = length l.
Proof. induction 1; cbn; congruence. Qed.

Section Event.
Variables manual giveup : bool.
Local Notation estep := (estep manual giveup).
Local Notation erun := (erun manual giveup).

Lemma signalling_app tr : forall b tr2, signalling manual b (tr ++ tr2) = match signalling manual b tr with Some b1 => signalling manual b1 tr2 | None => None end.
Proof.
  induction tr as [|e tr IH]; intros b tr2; [reflexivity|]. cbn [app signalling]. destruct e; [destruct b; [apply IH|reflexivity]|apply IH|apply IH|destruct manual; [apply IH|reflexivity]].
Qed.

(** Reset is only tried on manual events. *)
Definition treset (s : event) : Prop := manual = false -> forall i p, nth_error (ethreads s) i = Some p -> match p with TEnter | TInside => False | _ => True end.

Lemma woken_t p q : ewoken1 p q -> match q with TEnter | TInside => False | _ => True end <-> match p with TEnter | TInside => False | _ => True end.
Proof. intros [|]; tauto. Qed.

Ltac pick Hj O := apply nth_upd_in in Hj; destruct Hj as [[-> ->]|[Hne Hj]]; [|try exact (O _ _ Hj)].

Lemma treset_step s e s' : treset s -> estep s e s' -> treset s'.
Proof.
  intros O H M. specialize (O M). destruct H; intros j p Hj; cbn [ethreads] in *; unfold eput in *; pick Hj O; try exact I;
    try (match goal with E : nth_error (ethreads _) _ = Some _ |- _ => exact (O _ _ E) end); try congruence.
  destruct H1 as [F _]. destruct (ewakes_nth _ _ _ _ F Hj) as (p0 & E0 & W). apply (woken_t _ _ W). exact (O _ _ E0).
Qed.

Lemma signal_step s e s' : treset s -> estep s e s' -> signalling manual (signaled s) (match e with Some x => [x] | None => [] end) = Some (signaled s').
Proof.
  intros O H. destruct H; cbn [signaled signalling]; try reflexivity; try (rewrite H0; reflexivity).
  destruct manual eqn:M; [reflexivity|]. destruct (O M _ _ H).
Qed.

Lemma erun_inv (P : event -> Prop) : (forall s e s', P s -> estep s e s' -> P s') -> forall s tr s', P s -> erun s tr s' -> P s'.
Proof. intros H s tr s' Ps R. induction R as [|s tr s1 e s2 R IH St]; [exact Ps|]. exact (H _ _ _ (IH Ps) St). Qed.

Definition eseen (e : option ev_event) : list ev_event := match e with Some x => [x] | None => [] end.
Lemma erun_front s e s1 tr s2 : estep s e s1 -> erun s1 tr s2 -> erun s (eseen e ++ tr) s2.
Proof.
  intros St R. induction R as [s1|s1 tr s2 e2 s3 R IH St2].
  - rewrite app_nil_r. exact (erun_step _ _ s [] s e s1 (erun_nil _ _ s) St).
  - rewrite app_assoc. exact (erun_step _ _ _ _ _ _ _ (IH St) St2).
Qed.

Lemma nth_repeat_eidle n i p : nth_error (repeat EIdle n) i = Some p -> p = EIdle.
Proof. intro E. apply nth_error_In in E. apply repeat_spec in E. exact E. Qed.

Lemma run_signal sg n tr s : erun (event_init sg n) tr s -> signalling manual sg tr = Some (signaled s).
Proof.
  intro R. assert (G : forall s0, treset s0 -> erun s0 tr s -> treset s /\ signalling manual (signaled s0) tr = Some (signaled s)).
  { intros s0 T R0. clear R. induction R0 as [s0|s0 tr s1 e s2 R IH St]; [split; [exact T|reflexivity]|]. destruct (IH T) as [T1 E1].
    split; [exact (treset_step _ _ _ T1 St)|]. rewrite signalling_app, E1. exact (signal_step _ _ _ T1 St). }
  apply (G (event_init sg n)); [|exact R]. intros _ i p E. apply nth_repeat_eidle in E. subst p. exact I.
Qed.

Lemma signal_count tr : forall sg sg', manual = false -> signalling manual sg tr = Some sg' -> satisfied tr + N.b2n sg' <= fires tr + N.b2n sg.
Proof.
  induction tr as [|e tr IH]; intros sg sg' M E; [injection E as <-; cbn; lia|]. cbn [signalling] in E. destruct e; cbn [satisfied fires].
  - destruct sg; [|discriminate]. specialize (IH _ _ M E). rewrite M in IH. cbn [N.b2n] in *. lia.
  - exact (IH _ _ M E).
  - specialize (IH _ _ M E). cbn [N.b2n] in *. destruct sg; cbn [N.b2n]; lia.
  - rewrite M in E. discriminate.
Qed.

(** Threads in a wait are counted. *)
Definition counted (s : event) : Prop := waiting s = N.of_nat (tally inwait (ethreads s)) /\ N.of_nat (length (ethreads s)) < W32.

Lemma minus1_ok n : 0 < n -> n < W32 -> minus1 n = n - 1.
Proof.
  intros A B. unfold minus1. replace (n + W32 - 1) with (n - 1 + 1 * W32) by lia. rewrite N.mod_add by discriminate. apply N.mod_small. lia.
Qed.

Lemma counted_step s e s' : counted s -> estep s e s' -> counted s'.
Proof.
  intros [C L] H. pose proof (tally_len inwait (ethreads s) ltac:(intros []; cbn; lia)) as TL. unfold counted.
  destruct H; cbn [ethreads waiting] in *; unfold eput in *; rewrite upd_length; try (rewrite (Forall2_len _ _ _ (proj1 H1)) || rewrite (Forall2_len _ _ _ (wake_all_2 _))); (split; [|exact L]);
    try (match goal with E : nth_error (ethreads s) ?i = Some ?p |- context [upd (ethreads s) ?i ?q] => pose proof (tally_upd inwait (ethreads s) i p q E) as T; cbn [inwait] in T; pose proof (tally_in inwait (ethreads s) i p E) as TI; cbn [inwait] in TI end);
    try lia.
  - pose proof (tally_len inwait (upd (ethreads s) i (EAsleep w)) ltac:(intros []; cbn; lia)) as TL2. rewrite upd_length in TL2.
    assert (tally inwait (upd (ethreads s) i (EAsleep w)) = tally inwait (ethreads s) + 1)%nat as T2 by lia.
    rewrite N.mod_small; lia.
  - rewrite minus1_ok by lia. lia.
  - rewrite minus1_ok by lia. lia.
  - destruct (ewakes_nth' _ _ _ _ (proj1 H1) H) as (q & Eq & W). inversion W; subst. pose proof (tally_upd inwait l i FInside EIdle Eq) as T. cbn [inwait] in T. rewrite (ewoken_inwait _ _ (proj1 H1)) in T. lia.
  - destruct (ewakes_nth' _ _ _ _ (wake_all_2 _) H) as (q & Eq & W). inversion W; subst. pose proof (tally_upd inwait _ i FInside EIdle Eq) as T. cbn [inwait] in T. rewrite (ewoken_inwait _ _ (wake_all_2 _)) in T. lia.
Qed.

(** Automatic events: if nobody gives up, sleepers of a fired event are taken care of. *)
Definition persists (s : event) : Prop := forall i p, nth_error (ethreads s) i = Some p -> match p with EWoken _ z | EBack _ z => z = true | _ => True end.
Definition ecared (s : event) : Prop := signaled s = true -> (exists i w, nth_error (ethreads s) i = Some (EAsleep w)) -> exists i p, nth_error (ethreads s) i = Some p /\ eawake p = 1%nat.

Lemma persists_step s e s' : giveup = false -> persists s -> estep s e s' -> persists s'.
Proof.
  intros G O H. destruct H; intros j p Hj; cbn [ethreads] in *; unfold eput in *; pick Hj O; try exact I; try reflexivity; try congruence;
    try (match goal with E : nth_error (ethreads _) _ = Some _ |- _ => exact (O _ _ E) end).
  - destruct (ewakes_nth _ _ _ _ (proj1 H1) Hj) as (p0 & E0 & W). specialize (O _ _ E0). destruct W; [exact O|reflexivity].
  - destruct (ewakes_nth _ _ _ _ (wake_all_2 _) Hj) as (p0 & E0 & W). specialize (O _ _ E0). destruct W; [exact O|reflexivity].
Qed.

Lemma awake_other s i p q : nth_error (ethreads s) i = Some p -> eawake p = O -> (exists j r, nth_error (ethreads s) j = Some r /\ eawake r = 1%nat) ->
  exists j r, nth_error (upd (ethreads s) i q) j = Some r /\ eawake r = 1%nat.
Proof.
  intros E Hp (j & r & Ej & Er). exists j, r. split; [|exact Er]. rewrite nth_upd. destruct (Nat.eq_dec i j) as [->|_]; [congruence|exact Ej].
Qed.

Lemma awake_self s i p q : nth_error (ethreads s) i = Some p -> eawake q = 1%nat -> exists j r, nth_error (upd (ethreads s) i q) j = Some r /\ eawake r = 1%nat.
Proof. intros E Hq. exists i, q. split; [|exact Hq]. rewrite nth_upd. destruct (Nat.eq_dec i i) as [_|X]; [rewrite E; reflexivity|congruence]. Qed.

Lemma ecared_step s e s' : manual = false -> persists s -> counted s -> ecared s -> estep s e s' -> ecared s'.
Proof.
  intros M P [C L] K H Hs (j & w' & Hj). unfold ecared in K.
  destruct H; cbn [ethreads signaled] in *; unfold eput in *; try congruence.
  all: try (apply nth_upd_in in Hj; destruct Hj as [[_ X]|[_ Hj]]; [discriminate|];
    first [ eapply awake_self; [eassumption|reflexivity] | eapply awake_other; [eassumption|reflexivity|apply K; [exact Hs|exists j, w'; exact Hj]] ]).
  - (* e_sleep *)
    eapply awake_other; [exact H|reflexivity|]. destruct (Nat.eq_dec 0 (tally inwait (ethreads s))) as [Z|Z].
    + exfalso. apply H0. split; [exact Hs|]. right. lia.
    + destruct (tally_pos inwait (ethreads s) ltac:(lia)) as (k & p & Ek & Hp). destruct p as [| | |w1|w1 z|w1 z| | | |]; cbn in Hp; try lia.
      * apply K; [exact Hs|]. exists k, w1. exact Ek.
      * specialize (P _ _ Ek). cbn in P. subst z. exists k. eexists. split; [exact Ek|reflexivity].
      * specialize (P _ _ Ek). cbn in P. subst z. exists k. eexists. split; [exact Ek|reflexivity].
  - (* e_relock *)
    pose proof (P _ _ H) as Z. cbn in Z. subst z. eapply awake_self; [exact H|reflexivity].
  - (* fire *)
    apply nth_upd_in in Hj. destruct Hj as [[_ X]|[Hne Hj]]; [discriminate|]. destruct H1 as [F W]. destruct (ewakes_nth _ _ _ _ F Hj) as (p0 & E0 & W1). inversion W1; subst.
    destruct (W (ex_intro _ w' (nth_error_In _ _ E0))) as (k & w2 & Ea & Eb). exists k, (EWoken w2 true). split; [|reflexivity].
    rewrite nth_upd. destruct (Nat.eq_dec i k) as [->|_]; [congruence|exact Eb].
Qed.

(** Manual events: nobody sleeps while the event is signaled. *)
Definition nosleep (s : event) : Prop := signaled s = true -> forall i w, nth_error (ethreads s) i <> Some (EAsleep w).

Lemma nosleep_step s e s' : manual = true -> nosleep s -> estep s e s' -> nosleep s'.
Proof.
  intros M K H Hs j w' Hj. destruct H; cbn [ethreads signaled] in *; unfold eput in *; try congruence;
    try (apply nth_upd_in in Hj; destruct Hj as [[_ X]|[_ Hj]]; [discriminate|exact (K Hs j w' Hj)]).
  - apply nth_upd_in in Hj. destruct Hj as [[_ X]|[_ Hj]]; [discriminate|]. apply (K H0 j w' Hj).
  - apply H0. split; [exact Hs|left; exact M].
  - apply nth_upd_in in Hj. destruct Hj as [[_ X]|[_ Hj]]; [discriminate|]. apply (K H0 j w' Hj).
  - apply nth_upd_in in Hj. destruct Hj as [[_ X]|[_ Hj]]; [discriminate|]. unfold wake_all in Hj. rewrite nth_error_map in Hj. destruct (nth_error (ethreads s) j) as [[]|]; discriminate.
Qed.
End Event.
