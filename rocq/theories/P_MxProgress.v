(** Progress of the mutex on POSIX: proofs. *)
From Verif Require Import Base S_Sync M_Sem M_Mutex P_Sem P_Mutex P_Progress.
Open Scope N_scope.

Lemma owner_dec (x : mobj) i : {owner x = Some i} + {owner x <> Some i}.
Proof. decide equality. apply Nat.eq_dec. Defined.

(** A wait that is given up. *)
Definition mquits (p q : mpc) : Prop := match p, q with LWait _, MIdle => True | _, _ => False end.
(** A step inside a call that is not given up. *)
Definition mgoes_on (s : mutex) (e : option mx_event) (s' : mutex) : Prop :=
  mstep false s e s' /\ forall i p q, nth_error (mthreads s) i = Some p -> nth_error (mthreads s') i = Some q -> (p = MIdle -> q = MIdle) /\ ~ mquits p q.

Definition mwork (p : mpc) : nat :=
  match p with MIdle => 0 | LEnter _ => 5 | LInside _ => 4 | LWait _ => 3 | LGot _ => 2 | LInside2 _ => 1 | UEnter _ _ => 3 | UInside _ _ => 2 | URelease _ => 1 end.

Lemma mgoes_less s e s' : mgoes_on s e s' -> (tally mwork (mthreads s') < tally mwork (mthreads s))%nat.
Proof.
  intros [St G]. destruct St; try discriminate; cbn [mthreads] in *; unfold mput in *;
    match goal with H : nth_error (mthreads s) ?i = Some ?p |- context [upd _ ?i ?q] =>
      pose proof (tally_upd mwork (mthreads s) i p q H) as T; specialize (G i p q H (put_same _ _ _ _ H)); cbn [mwork] in T end; cbn [mquits] in G;
    first [lia | destruct G as [G1 G2]; exfalso; first [discriminate (G1 eq_refl) | exact (G2 I)]].
Qed.

Lemma mgoes_intro s e s' i p q : mstep false s e s' -> mthreads s' = upd (mthreads s) i q -> nth_error (mthreads s) i = Some p -> p <> MIdle -> ~ mquits p q -> mgoes_on s e s'.
Proof.
  intros St E A NI Q. split; [exact St|]. intros j p' q' Aj Aj'. rewrite E in Aj'. destruct (Nat.eq_dec i j) as [<-|Ne].
  - rewrite (put_same _ _ _ _ A) in Aj'. split; [congruence|]. congruence.
  - rewrite (put_other _ _ _ _ Ne) in Aj'. assert (p' = q') by congruence. subst q'. split; [auto|]. destruct p'; cbn; tauto.
Qed.

(** The object a thread is concerned with, and whether it has its critical section. *)
Definition about (p : mpc) : option nat :=
  match p with MIdle => None | LEnter o | LInside o | LWait o | LGot o | LInside2 o | UEnter o _ | UInside o _ | URelease o => Some o end.
Definition inside (p : mpc) : option nat := match p with LInside o | LInside2 o | UInside o _ | URelease o => Some o | _ => None end.
Definition cinv (s : mutex) : Prop :=
  (forall i p o, nth_error (mthreads s) i = Some p -> about p = Some o -> exists x, nth_error (objs s) o = Some x) /\
  (forall o x j, nth_error (objs s) o = Some x -> crit x = Some j -> exists p, nth_error (mthreads s) j = Some p /\ inside p = Some o).

Lemma exists_upd {A} (l : list A) o x : forall o', (exists y, nth_error l o' = Some y) -> exists y, nth_error (upd l o x) o' = Some y.
Proof. intros o' (y & E). rewrite nth_upd. destruct (Nat.eq_dec o o') as [->|]; [rewrite E; eauto|eauto]. Qed.

Lemma cinv_step er s e s' : cinv s -> mstep er s e s' -> cinv s'.
Proof.
  intros [A B] St.
  assert (Th : forall i q (l2 : list mobj), (forall o, (exists x, nth_error (objs s) o = Some x) -> exists x, nth_error l2 o = Some x) ->
    (forall o, about q = Some o -> exists x, nth_error (objs s) o = Some x) ->
    forall j p o, nth_error (upd (mthreads s) i q) j = Some p -> about p = Some o -> exists x, nth_error l2 o = Some x).
  { intros i q l2 M Hq j p o Ej Ep. apply M. apply nth_upd_in in Ej. destruct Ej as [[_ ->]|[_ Ej]]; [exact (Hq o Ep)|exact (A j p o Ej Ep)]. }
  assert (Keep : forall i p q o j, nth_error (mthreads s) i = Some p -> (inside p = Some o -> inside q = Some o) ->
    (exists p', nth_error (mthreads s) j = Some p' /\ inside p' = Some o) -> exists p', nth_error (upd (mthreads s) i q) j = Some p' /\ inside p' = Some o).
  { intros i p q o j Ei K (p' & Ej & Ip). rewrite nth_upd. destruct (Nat.eq_dec i j) as [<-|]; [|eauto]. rewrite Ei. exists q. split; [reflexivity|]. apply K. congruence. }
  destruct St; split; cbn [objs mthreads]; unfold mput, oput.
  all: try (eapply Th; [first [intros ? K; exact K | apply exists_upd] | cbn [about]; intros o' Eo; first [discriminate | injection Eo as <-; eauto; match goal with Hi : nth_error (mthreads _) _ = Some _ |- _ => exact (A _ _ _ Hi eq_refl) end]]).
  all: intros o' x' j' Eo Ec.
  all: try (eapply Keep; [eassumption|cbn [inside]; intro; discriminate|exact (B _ _ _ Eo Ec)]).
  all: apply nth_upd_in in Eo; destruct Eo as [[<- ->]|[Ne Eo]]; cbn [crit] in Ec; try discriminate Ec.
  all: try (injection Ec as <-; eexists; split; [eapply put_same; eassumption|reflexivity]).
  all: try (eapply Keep; [eassumption|cbn [inside]; intro Q; first [discriminate Q | injection Q as Q; congruence]|exact (B _ _ _ Eo Ec)]).
  eapply Keep; [eassumption|cbn [inside]; auto|eapply B; eassumption].
Qed.

Lemma cinv_run er nobj n tr s : mrun er (mutex_init nobj n) tr s -> cinv s.
Proof.
  intro R. remember (mutex_init nobj n) as s0 eqn:E0. induction R as [s1|s1 tr s2 e s3 R IH St]; [|exact (cinv_step er s2 e s3 (IH E0) St)].
  subst s1. split.
  - intros i p o E Ep. apply nth_repeat_same in E. subst p. discriminate.
  - intros o x j E Ec. apply nth_repeat_same in E. subst x. discriminate.
Qed.

Lemma mstuck_pc s : cinv s -> (forall e s', ~ mgoes_on s e s') -> forall i p, nth_error (mthreads s) i = Some p ->
  p = MIdle \/ (exists o, p = LWait o) /\ avail s = false.
Proof.
  intros [A B] K.
  assert (In0 : forall i p o, nth_error (mthreads s) i = Some p -> inside p = Some o -> False).
  { intros i p o Ei Ip. assert (Ab : about p = Some o) by (destruct p; cbn in *; congruence). destruct (A i p o Ei Ab) as [x Ex].
    destruct p as [|o1|o1|o1|o1|o1|o1 all|o1 all|o1]; try discriminate Ip; injection Ip as ->.
    - destruct (owner_dec x i) as [Q|Q].
      + refine (K _ _ (mgoes_intro _ _ _ i _ _ (m_again false s i o x Ei Ex Q) eq_refl Ei _ _)); [discriminate|cbn; tauto].
      + refine (K _ _ (mgoes_intro _ _ _ i _ _ (m_other false s i o x Ei Ex Q) eq_refl Ei _ _)); [discriminate|cbn; tauto].
    - refine (K _ _ (mgoes_intro _ _ _ i _ _ (m_own false s i o x Ei Ex) eq_refl Ei _ _)); [discriminate|cbn; tauto].
    - destruct (owner_dec x i) as [Q|Q].
      + destruct (N.eq_dec (after_unlock all (mcount x)) 0) as [Z|Z].
        * refine (K _ _ (mgoes_intro _ _ _ i _ _ (m_last false s i o all x Ei Ex Q Z) eq_refl Ei _ _)); [discriminate|cbn; tauto].
        * refine (K _ _ (mgoes_intro _ _ _ i _ _ (m_dec false s i o all x Ei Ex Q Z) eq_refl Ei _ _)); [discriminate|cbn; tauto].
      + refine (K _ _ (mgoes_intro _ _ _ i _ _ (m_unot false s i o all x Ei Ex Q) eq_refl Ei _ _)); [discriminate|cbn; tauto].
    - refine (K _ _ (mgoes_intro _ _ _ i _ _ (m_release false s i o x Ei Ex) eq_refl Ei _ _)); [discriminate|cbn; tauto]. }
  assert (Free : forall o x, nth_error (objs s) o = Some x -> crit x = None).
  { intros o x Ex. destruct (crit x) as [j|] eqn:C; [|reflexivity]. exfalso. destruct (B o x j Ex C) as (p & Ej & Ip). exact (In0 j p o Ej Ip). }
  intros i p Ei. destruct p as [|o|o|o|o|o|o all|o all|o]; [left; reflexivity| | |right; split; [eauto|]| | | | |]; try (exfalso; exact (In0 i _ o Ei eq_refl)).
  - exfalso. destruct (A i _ o Ei eq_refl) as [x Ex]. refine (K _ _ (mgoes_intro _ _ _ i _ _ (m_lock false s i o x Ei Ex (Free o x Ex)) eq_refl Ei _ _)); [discriminate|cbn; tauto].
  - destruct (avail s) eqn:V; [exfalso|reflexivity]. refine (K _ _ (mgoes_intro _ _ _ i _ _ (m_wait false s i o Ei V) eq_refl Ei _ _)); [discriminate|cbn; tauto].
  - exfalso. destruct (A i _ o Ei eq_refl) as [x Ex]. refine (K _ _ (mgoes_intro _ _ _ i _ _ (m_lock2 false s i o x Ei Ex (Free o x Ex)) eq_refl Ei _ _)); [discriminate|cbn; tauto].
  - exfalso. destruct (A i _ o Ei eq_refl) as [x Ex]. refine (K _ _ (mgoes_intro _ _ _ i _ _ (m_ulock false s i o all x Ei Ex (Free o x Ex)) eq_refl Ei _ _)); [discriminate|cbn; tauto].
Qed.
