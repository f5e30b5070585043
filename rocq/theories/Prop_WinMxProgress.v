(** C132 on Windows: a call on a mutex waits only for another thread that holds it. *)
From Verif Require Import Base S_Sync M_Mutex M_WinMutex P_Sem P_Mutex P_WinMutex P_Progress Prop_Progress.
Open Scope N_scope.

(** A wait that is given up; a step inside of a call that is not given up. *)
Definition wquits (p q : xpc) : Prop := match p, q with XWait _, XIdle => True | _, _ => False end.
Definition wgoes_on (s : wmutex) (e : option mx_event) (s' : wmutex) : Prop :=
  xstep false s e s' /\ xthreads s' <> xthreads s /\
  forall i p q, nth_error (xthreads s) i = Some p -> nth_error (xthreads s') i = Some q -> (p = XIdle -> q = XIdle) /\ ~ wquits p q.

Definition wwork (p : xpc) : nat := match p with XWait _ => 2 | XOwn _ => 1 | _ => 0 end.

Lemma wgoes_less s e s' : wgoes_on s e s' -> (tally wwork (xthreads s') < tally wwork (xthreads s))%nat.
Proof.
  intros (St & Ne & G). destruct St; try discriminate; cbn [xthreads] in *; unfold xput in *; try congruence;
    match goal with H : nth_error (xthreads s) ?i = Some ?p |- context [upd _ ?i ?q] =>
      pose proof (tally_upd wwork (xthreads s) i p q H) as T; specialize (G i p q H (put_same _ _ _ _ H)); cbn [wwork] in T end; cbn [wquits] in G;
    first [lia | destruct G as [G1 G2]; exfalso; first [discriminate (G1 eq_refl) | exact (G2 I)]].
Qed.

Lemma wgoes_intro s e s' i p q : xstep false s e s' -> xthreads s' = upd (xthreads s) i q -> nth_error (xthreads s) i = Some p -> p <> q -> p <> XIdle -> ~ wquits p q -> wgoes_on s e s'.
Proof.
  intros St E A N NI Q. split; [exact St|]. split.
  - intro X. rewrite E in X. pose proof (put_same _ _ _ q A) as Y. rewrite X in Y. congruence.
  - intros j p' q' Aj Aj'. rewrite E in Aj'. destruct (Nat.eq_dec i j) as [<-|Ne].
    + rewrite (put_same _ _ _ _ A) in Aj'. split; [congruence|]. congruence.
    + rewrite (put_other _ _ _ _ Ne) in Aj'. assert (p' = q') by congruence. subst q'. split; [auto|]. destruct p'; cbn; tauto.
Qed.

(** A call is about an object that exists. *)
Definition wabout (p : xpc) : option nat := match p with XWait o | XOwn o => Some o | _ => None end.
Definition wvalid (s : wmutex) : Prop := forall i p o, nth_error (xthreads s) i = Some p -> wabout p = Some o -> exists x, nth_error (xobjs s) o = Some x.

Lemma upd_some {A} (l : list A) o x k : (exists y, nth_error l k = Some y) -> exists y, nth_error (upd l o x) k = Some y.
Proof. intros [y E]. rewrite nth_upd. destruct (Nat.eq_dec o k) as [->|]; [rewrite E; eauto|eauto]. Qed.

Lemma wvalid_step er s e s' : wvalid s -> xstep er s e s' -> wvalid s'.
Proof.
  intros V St i p o. destruct St; cbn [xthreads xobjs]; unfold xput, xset; intros E A; try (apply upd_some); try (exact (V i p o E A));
    try (apply nth_upd_in in E; destruct E as [[_ ->]|[_ E]]; [|exact (V i p o E A)]; cbn [wabout] in A; try discriminate; injection A as <-; try (eexists; eassumption);
         match goal with H : nth_error (xthreads s) ?j = Some ?q |- _ => exact (V j q _ H eq_refl) end).
Qed.
Lemma wvalid_run er nobj n tr s : xrun er (wmutex_init nobj n) tr s -> wvalid s.
Proof.
  intro R. remember (wmutex_init nobj n) as s0 eqn:E0. induction R as [s0|s0 tr s1 e s2 R IH St]; [|eapply wvalid_step; [apply IH; exact E0|exact St]].
  subst s0. intros i p o E A. unfold wmutex_init in E. cbn [xthreads] in E. apply nth_error_In, repeat_spec in E. subst p. discriminate.
Qed.

(** Left alone, the threads inside calls go on for at most two steps each. *)
Theorem C132_win_ends : forall k s s', steps wgoes_on k s s' -> (k <= 2 * length (xthreads s))%nat.
Proof.
  intros k s s' R. assert (H : (k + tally wwork (xthreads s') <= tally wwork (xthreads s))%nat).
  { induction R as [s|k s s1 e s2 R IH St]; [lia|]. pose proof (wgoes_less _ _ _ St). lia. }
  assert (B : forall l, (tally wwork l <= 2 * length l)%nat) by (induction l as [|p l IH]; [cbn; lia|]; cbn [tally fold_right length]; unfold tally in IH; destruct p; cbn [wwork]; lia).
  specialize (B (xthreads s)). lia.
Qed.

(** When nobody can go on, for any number of objects of one mutex and any number of threads that do
    not end: every thread is outside or waits in Lock, and then another thread holds the mutex.  On
    Windows a thread never waits for itself. *)
Theorem C132_win_waits : forall nobj n tr s, xrun false (wmutex_init nobj n) tr s ->
  (forall tr1 tr2 i o, tr = tr1 ++ tr2 -> mx_depth tr1 i o < 2 ^ 32) -> (forall e s', ~ wgoes_on s e s') ->
  forall i p, nth_error (xthreads s) i = Some p -> p <> XIdle ->
  exists o j o', p = XWait o /\ 0 < mx_depth tr j o' /\ j <> i.
Proof.
  intros nobj n tr s R Sh K i p Ei NI. pose proof (wvalid_run _ _ _ _ _ R) as V.
  destruct (xrun_inv nobj n tr s R Sh) as ((A & _ & _ & _ & D & _) & (Cn & En) & Z).
  assert (NO : forall j o, nth_error (xthreads s) j <> Some (XOwn o)).
  { intros j o Ej. destruct (V j _ o Ej eq_refl) as [x Ex]. eapply (K (Some (MLocked j o))). eapply (wgoes_intro s _ _ j (XOwn o) XIdle); [exact (x_own false s j o x Ej Ex)|reflexivity|exact Ej|discriminate|discriminate|cbn; tauto]. }
  destruct p as [|o|o|]; [congruence| |exfalso; exact (NO i o Ei)|exfalso; exact (En i Ei)].
  destruct (xos s) as [[j k]|] eqn:Eo.
  - destruct (Nat.eq_dec j i) as [->|Ne].
    { exfalso. eapply (K None). eapply (wgoes_intro s _ _ i (XWait o) (XOwn o)); [exact (x_more false s i o k Ei Eo)|reflexivity|exact Ei|discriminate|discriminate|cbn; tauto]. }
    destruct A as [A Pk]. assert (Ow : owning j s = 0%nat).
    { unfold owning. destruct (nth_error (xthreads s) j) as [[]|] eqn:Ej; try reflexivity. exfalso. exact (NO _ _ Ej). }
    rewrite Ow in A. cbn [lostn] in A. exists o, j. assert (T : exists o' x, nth_error (xobjs s) o' = Some x /\ xowner x = Some j).
    { assert (P : (0 < tally (ownby j) (xobjs s))%nat) by lia. clear -P. induction (xobjs s) as [|x l IH]; [cbn in P; lia|]. cbn [tally fold_right] in P. fold (tally (ownby j) l) in P.
      destruct (ownby j x) eqn:E; [destruct (IH P) as (o' & y & E1 & E2); exists (S o'), y; auto|]. exists 0%nat, x. split; [reflexivity|].
      unfold ownby in E. destruct (xowner x) as [k|]; [|discriminate]. destruct (Nat.eqb_spec j k) as [->|]; [reflexivity|discriminate]. }
    destruct T as (o' & x & Ex & Ox). exists o'. split; [reflexivity|]. split; [|exact Ne]. rewrite Z, (xdepth_at s j o' x Ex), Ox, Nat.eqb_refl. exact (proj1 (Cn o' x j Ex Ox)).
  - exfalso. eapply (K None). eapply (wgoes_intro s _ _ i (XWait o) (XOwn o)); [exact (x_wait false s i o Ei Eo D)|reflexivity|exact Ei|discriminate|discriminate|cbn; tauto].
Qed.

(** Thread 0 has locked the mutex by two objects; thread 1 waits. *)
Example C132_win_ex : exists s, xrun false (wmutex_init 2 2) [MLocked 0 0; MLocked 0 1] s /\ nth_error (xthreads s) 1 = Some (XWait 0) /\ forall e s', ~ wgoes_on s e s'.
Proof.
  exists (WMutex (Some (0%nat, 2)) false [XObj (Some 0%nat) 1; XObj (Some 0%nat) 1] [XIdle; XWait 0]). split; [|split; [reflexivity|]].
  - eapply (xrun_front false _ None); [eapply (x_call false _ 0 0); [reflexivity|reflexivity|discriminate]|cbn]. eapply (xrun_front false _ None); [eapply (x_wait false _ 0 0); reflexivity|cbn].
    eapply (xrun_front false _ (Some (MLocked 0 0))); [eapply (x_own false _ 0 0); reflexivity|cbn]. eapply (xrun_front false _ None); [eapply (x_call false _ 0 1); [reflexivity|reflexivity|discriminate]|cbn].
    eapply (xrun_front false _ None); [eapply (x_more false _ 0 1); reflexivity|cbn]. eapply (xrun_front false _ (Some (MLocked 0 1))); [eapply (x_own false _ 0 1); reflexivity|cbn].
    eapply (xrun_front false _ None); [eapply (x_call false _ 1 0); [reflexivity|reflexivity|discriminate]|cbn]. apply xrun_nil.
  - intros e s' (St & Ne & G). inversion St; subst; cbn [xthreads xos] in *; try discriminate; try congruence;
      match goal with Ha : @nth_error xpc _ ?k = Some _ |- _ => destruct k as [|[|k]]; cbn in Ha; try discriminate Ha; try (destruct k; discriminate Ha) end; try discriminate; unfold xput in G; cbn [xthreads upd] in G.
    all: try (specialize (G 0%nat _ _ eq_refl eq_refl); destruct G as [G _]; discriminate (G eq_refl)).
    all: try (specialize (G 1%nat _ _ eq_refl eq_refl); destruct G as [_ G]; exact (G I)).
Qed.

Print Assumptions C132_win_ends. Print Assumptions C132_win_waits.
