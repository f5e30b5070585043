(** C137: named objects on POSIX and processes that end. *)
From Verif Require Import Base S_Named M_Named M_NamedDie P_Sem P_Named P_Progress P_NamedDie Prop_Progress.
Open Scope N_scope.

(** ** Processes that end outside of Create and the destructor *)

(** Left alone, the calls end: each takes at most six steps. *)
Theorem C137_ends : forall k a b, steps ngoes_on k a b -> (k <= 6 * length (procs (fst a)))%nat.
Proof.
  intros k a b R. assert (H : (k + tally nwork (procs (fst b)) <= tally nwork (procs (fst a)))%nat).
  { induction R as [a|k a a1 e b R IH St]; [lia|]. pose proof (ngoes_less _ _ _ St). lia. }
  assert (B : forall l, (tally nwork l <= 6 * length l)%nat) by (induction l as [|p l IH]; [cbn; lia|]; cbn [tally fold_right length]; unfold tally in IH; destruct p; cbn [nwork]; lia).
  specialize (B (procs (fst a))). lia.
Qed.

(** As long as processes end only outside of calls, and, once opened, the object is never closed by
    all of them: when nobody can go on, everybody is outside of calls or has the object open. *)
Theorem C137_survives : forall n tr s dead, N.of_nat n < W32 -> drun false false (named_init n, []) tr (s, dead) -> kept tr ->
  (forall e b, ~ ngoes_on (s, dead) e b) -> forall i p, nth_error (procs s) i = Some p -> p = NIdle \/ p = NOpen.
Proof.
  intros n tr s dead W R K Stuck. destruct (nrun_inv _ _ _ W (drun_nrun _ _ _ _ _ R) K) as [I L]. pose proof (drun_dead _ _ _ _ R) as Dd.
  assert (Go : forall i p q e s', nth_error (procs s) i = Some p -> p <> NIdle -> p <> NOpen -> nstep s e s' -> procs s' = upd (procs s) i q -> (forall j, e <> Some (NUndefined j)) -> False).
  { intros i p q e s' E N1 N2 Sn Eu Nu. refine (Stuck e (s', dead) _). eapply ngoes_intro; try eassumption. intro Hi. destruct (Dd i Hi) as [X|X]; congruence. }
  (* those that have the mutex, and the one that makes the object, can go on *)
  assert (A : forall i p, nth_error (procs s) i = Some p -> (0 < holds p + early p)%nat -> False).
  { intros i p E H. pose proof (not_stale tr s i p I E) as Sp. destruct p as [| | | |[]|[]| | | |[]| | |]; cbn [holds early stale] in *; try lia; try discriminate.
    - eapply Go; [exact E|discriminate|discriminate|apply n_make; exact E|reflexivity|discriminate].
    - eapply Go; [exact E|discriminate|discriminate|apply n_status; exact E|reflexivity|discriminate].
    - eapply Go; [exact E|discriminate|discriminate|apply n_ref; exact E|reflexivity|discriminate].
    - eapply Go; [exact E|discriminate|discriminate|apply n_init; exact E|reflexivity|discriminate].
    - eapply Go; [exact E|discriminate|discriminate|eapply n_ready; [exact E|exact (i_holder _ _ I i _ E ltac:(cbn; lia))]|reflexivity|discriminate].
    - destruct (N.eq_dec (ref s) 0) as [Z|Z].
      + eapply Go; [exact E|discriminate|discriminate|apply n_first; [exact E|exact Z]|reflexivity|discriminate].
      + eapply Go; [exact E|discriminate|discriminate|apply n_more; [exact E|exact Z]|reflexivity|discriminate].
    - eapply Go; [exact E|discriminate|discriminate|apply n_opened; exact E|reflexivity|discriminate].
    - eapply Go; [exact E|discriminate|discriminate|apply n_gone; exact E|reflexivity|discriminate]. }
  assert (Th : tally holds (procs s) = O) by (apply tally_zero; intros i p E; destruct (holds p) eqn:X; [reflexivity|exfalso; apply (A i p E); lia]).
  assert (Te : tally early (procs s) = O) by (apply tally_zero; intros i p E; destruct (early p) eqn:X; [reflexivity|exfalso; apply (A i p E); lia]).
  assert (Mn : nmtx s = None) by (pose proof (i_held _ _ I) as X; destruct (nmtx s); [lia|reflexivity]).
  intros i p E. pose proof (not_stale tr s i p I E) as Sp.
  destruct p as [| | | |[]|[]| | | |[]| | |]; auto; cbn [stale] in Sp; try discriminate; exfalso; try (apply (A i _ E); cbn; lia).
  - pose proof (tally_in active _ _ _ E) as Ac. cbn [active] in Ac. pose proof (i_status _ _ I) as X. rewrite Te in X. destruct (made s) eqn:M; [|rewrite (i_idle _ _ I M) in Ac; lia].
    destruct (status s) eqn:S0; cbn in X; [|lia]. eapply Go; [exact E|discriminate|discriminate|apply n_seen; [exact E|exact S0]|reflexivity|discriminate].
  - eapply Go; [exact E|discriminate|discriminate|apply n_lock; [exact E|exact Mn]|reflexivity|discriminate].
  - eapply Go; [exact E|discriminate|discriminate|apply n_clock; [exact E|exact Mn]|reflexivity|discriminate].
Qed.

(** ** Processes that end anywhere, and mmap that fails *)

(** A process that ends while it makes the object, or while it counts itself in or out: whatever
    anybody does from then on, no Create of this name returns any more. *)
Theorem C137_ended_inside_refuted : forall nomap abrupt n tr s dead i p, drun nomap abrupt (named_init n, []) tr (s, dead) ->
  In i dead -> nth_error (procs s) i = Some p -> In p [NNew; NMake; NMake2; NInit true; NReady true; NLocked; NUnlock true; NUnlock false; NClosing] ->
  forall tr' s' dead' j, drun nomap abrupt (s, dead) tr' (s', dead') -> ~ In (NReturned j) tr'.
Proof.
  intros nomap abrupt n tr s dead i p R Hd E Hp tr' s' dead' j R'. pose proof (dwinv_run _ _ _ _ _ _ R) as I.
  refine (proj2 (blocked_run _ _ _ _ _ _ _ I _ R') j). apply (blocked_mid s dead i p I E Hd).
  cbn [In] in Hp. repeat (destruct Hp as [<-|Hp]; [first [left; reflexivity|right; reflexivity]|]). destruct Hp.
Qed.

(** If mmap fails for the process that has just created the object, its Create returns false, but
    no Create of this name, in no process, returns any more after that. *)
Theorem C137_mmap_refuted : forall abrupt n tr s dead i, drun true abrupt (named_init n, []) tr (s, dead) -> ~ In i dead ->
  nth_error (procs s) i = Some NNew ->
  exists s1, dstep true abrupt (s, dead) None (s1, dead) /\ nth_error (procs s1) i = Some NIdle /\
  forall tr' s' dead' j, drun true abrupt (s1, dead) tr' (s', dead') -> ~ In (NReturned j) tr'.
Proof.
  intros abrupt n tr s dead i R Nd E. pose proof (dwinv_run _ _ _ _ _ _ R) as I.
  eexists. split; [apply (d_nomap_new true abrupt s dead i E Nd eq_refl)|]. split; [exact (put_same _ _ _ _ E)|].
  intros tr' s' dead' j R'. refine (proj2 (blocked_run _ _ _ _ _ _ _ (winv_back s i NNew I E (or_introl eq_refl)) _ R') j).
  left. cbn [made status procs]. split; [apply (made_true s i NNew I E); discriminate|]. split; [exact (w_early s I i NNew E eq_refl)|].
  intros k q Ek Sq. exfalso. unfold nput in Ek. apply nth_upd_in in Ek. destruct Ek as [[_ ->]|[Nk Ek]]; [discriminate|].
  pose proof (w_fresh s I i NNew k q E eq_refl Ek Nk). destruct q; discriminate.
Qed.

(** A process that ends while it has the object open is counted for ever: even if all others close
    the object, its contents are never made anew.  What the process left there stays: a lock it
    held is held for ever, also for processes that start when no other is left. *)
Theorem C137_left_refuted : forall nomap abrupt n tr s dead i, N.of_nat n < W32 -> drun nomap abrupt (named_init n, []) tr (s, dead) ->
  In i dead -> nth_error (procs s) i = Some NOpen -> (forall j p, nth_error (procs s) j = Some p -> p = NIdle \/ p = NOpen) ->
  forall tr' s' dead' j, drun nomap abrupt (s, dead) tr' (s', dead') -> ~ In (NInited j) tr'.
Proof.
  intros nomap abrupt n tr s dead i W R Hd E Q tr' s' dead' j R'.
  destruct (drinv_run _ _ _ _ _ _ W R) as [Ri L]. pose proof (dwinv_run _ _ _ _ _ _ R) as I.
  assert (LO : left_over i s dead) by (split; [exact Hd|split; [exact E|]]; intros k p Ek; destruct (Q k p Ek) as [->| ->]; reflexivity).
  remember (s, dead) as a eqn:Ea. remember (s', dead') as b eqn:Eb. clear R.
  assert (G : (winv s' /\ rinv s' /\ length (procs s') = n /\ left_over i s' dead') /\ ~ In (NInited j) tr'); [|exact (proj2 G)].
  revert s' dead' Eb. induction R' as [a|a tr' s1 e s2 R IH St]; intros s' dead' Eb; subst.
  - injection Eb as <- <-. split; [auto|]. intros [].
  - destruct s1 as [s1 d1]. destruct (IH eq_refl s1 d1 eq_refl) as [(I1 & R1 & L1 & LO1) N1].
    destruct (left_step _ _ _ _ _ _ _ _ I1 R1 LO1 St) as [LO2 N2]. destruct (drinv_step _ _ (length (procs s)) _ _ _ _ _ W L1 I1 R1 St) as [R2 L2].
    split; [split; [eapply dwinv_step; eassumption|auto]|]. intro H. apply in_app_or in H. destruct H as [H|H]; [exact (N1 H)|].
    destruct e as [x|]; [|destruct H]. destruct H as [->|[]]. exact (N2 j eq_refl).
Qed.

Lemma drun_front nm ab a e b tr c : dstep nm ab a e b -> drun nm ab b tr c -> drun nm ab a (nseen e ++ tr) c.
Proof.
  intros St R. induction R as [b|b tr c1 e2 c2 R IH St2]; [rewrite app_nil_r; exact (drun_step nm ab a [] a e b (drun_nil _ _ a) St)|].
  rewrite app_assoc. exact (drun_step nm ab a _ c1 e2 c2 (IH St) St2).
Qed.
Tactic Notation "dgo" uconstr(c) := eapply (drun_front _ _ _ None); [eapply d_step; [eapply c; reflexivity|intros ? []]|cbn].
Tactic Notation "dgo'" constr(x) uconstr(c) := eapply (drun_front _ _ _ (Some x)); [eapply d_step; [eapply c; reflexivity|intros ? []]|cbn].
Tactic Notation "dgo1" uconstr(c) := eapply (drun_front _ _ _ None); [eapply d_step; [eapply c; reflexivity|intros ? [<-|[]]; split; [reflexivity|discriminate]]|cbn].
Tactic Notation "dgo1'" constr(x) uconstr(c) := eapply (drun_front _ _ _ (Some x)); [eapply d_step; [eapply c; reflexivity|intros ? [<-|[]]; split; [reflexivity|discriminate]]|cbn].

(** Process 0 makes the object and ends; process 1 can open it.  If process 0 ends before it has
    initialised the object, process 1 waits for its mutex for ever. *)
Example C137_ex :
  (exists s, drun false false (named_init 2, []) [NInited 0; NReturned 0; NReturned 1] (s, [0%nat]) /\ procs s = [NOpen; NOpen] /\ ref s = 2) /\
  (exists s, drun false true (named_init 2, []) [] (s, [0%nat]) /\ procs s = [NInit true; NLock] /\ forall e b, ~ ngoes_on (s, [0%nat]) e b).
Proof.
  split.
  - eexists. split; [|split]. { unfold named_init. cbn [repeat].
    dgo (n_create _ 0%nat). dgo (n_make _ 0%nat). dgo (n_status _ 0%nat). dgo (n_ref _ 0%nat). dgo' (NInited 0) (n_init _ 0%nat true). dgo' (NReturned 0) (n_ready _ 0%nat true).
    eapply (drun_front _ _ _ None); [eapply (d_end _ _ _ _ 0%nat); [reflexivity|auto]|cbn].
    dgo1 (n_open _ 1%nat). dgo1 (n_seen _ 1%nat). dgo1 (n_lock _ 1%nat).
    eapply (drun_front _ _ _ None); [eapply d_step; [eapply (n_more _ 1%nat); [reflexivity|discriminate]|intros ? [<-|[]]; split; [reflexivity|discriminate]]|cbn].
    dgo1' (NReturned 1) (n_opened _ 1%nat). apply drun_nil. }
    + reflexivity.
    + reflexivity.
  - eexists. split; [|split]. { unfold named_init. cbn [repeat].
    dgo (n_create _ 0%nat). dgo (n_make _ 0%nat). dgo (n_status _ 0%nat). dgo (n_ref _ 0%nat).
    eapply (drun_front _ _ _ None); [eapply (d_end _ _ _ _ 0%nat); [reflexivity|auto]|cbn].
    dgo1 (n_open _ 1%nat). dgo1 (n_seen _ 1%nat). apply drun_nil. }
    + reflexivity.
    + intros e [s' d'] (St & Sd & Nu & G). inversion St; subst; try discriminate; cbn [fst snd] in *.
      match goal with D : forall i, In i [0%nat] -> _ |- _ => destruct (D 0%nat (or_introl eq_refl)) as [D0 _]; clear D end. cbn [procs] in *.
      match goal with N : nstep _ _ _ |- _ => inversion N end; subst; cbn [procs nmtx made status] in *; try discriminate;
        match goal with E : @nth_error npc _ ?k = Some _ |- _ => destruct k as [|[|k]]; cbn in E; try discriminate E; try (destruct k; discriminate E) end; try discriminate;
        injection D0; intros; discriminate.
Qed.

Print Assumptions C137_ends. Print Assumptions C137_survives. Print Assumptions C137_ended_inside_refuted. Print Assumptions C137_mmap_refuted. Print Assumptions C137_left_refuted.
