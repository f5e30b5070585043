(** Proofs about the mutex. *)
From Verif Require Import Base S_Sync M_Sem M_Mutex P_Sem.
Open Scope N_scope.

Definition holder : Type := option (nat * nat * N).
Definition hdepth (h : holder) (i o : nat) : N := match h with Some (j, p, n) => if Nat.eqb i j && Nat.eqb o p then n else 0 | None => 0 end.
Definition howner (h : holder) (o : nat) : option nat := match h with Some (j, p, _) => if Nat.eqb o p then Some j else None | None => None end.
Definition hnat (h : holder) : nat := match h with Some _ => 1%nat | None => O end.
Definition bnat (b : bool) : nat := if b then 1%nat else O.
Definition busy (p : mpc) : nat := match p with LGot _ | LInside2 _ | URelease _ => 1%nat | _ => O end.

Definition rel (h : holder) (s : mutex) : Prop :=
  (forall o x, nth_error (objs s) o = Some x -> owner x = howner h o) /\
  match h with Some (i, o, n) => (exists x, nth_error (objs s) o = Some x /\ mcount x = n) /\ 1 <= n < W32 | None => True end.
Definition tokens (h : holder) (s : mutex) : nat := (bnat (avail s) + tally busy (mthreads s) + hnat h)%nat.
Definition apart (h : holder) (s : mutex) : Prop := forall i o, nth_error (mthreads s) i = Some (LWait o) -> howner h o <> Some i.

Definition hnext (h : holder) (e : option mx_event) : holder :=
  match e with
  | Some (MLocked i o) => match h with Some (j, p, n) => Some (j, p, n + 1) | None => Some (i, o, 1) end
  | Some (MUnlocked i o all) => match h with Some (j, p, n) => if all || (n =? 1) then None else Some (j, p, n - 1) | None => None end
  | _ => h
  end.
Definition mseen (e : option mx_event) : list mx_event := match e with Some x => [x] | None => [] end.

Lemma after_all c : after_unlock true c = 0.
Proof. reflexivity. Qed.
Lemma after_one n : 1 <= n < W32 -> after_unlock false n = n - 1.
Proof. intro H. unfold after_unlock. replace (n + W32 - 1) with (n - 1 + 1 * W32) by lia. rewrite N.mod_add by discriminate. apply N.mod_small. lia. Qed.

Lemma owner_holds h s o x i : rel h s -> nth_error (objs s) o = Some x -> owner x = Some i -> exists n, h = Some (i, o, n) /\ mcount x = n /\ 1 <= n < W32.
Proof.
  intros [R1 R2] E H. pose proof (R1 _ _ E) as O. rewrite H in O. destruct h as [[[j p] n]|]; [|discriminate]. cbn [howner] in O. destruct (Nat.eqb_spec o p) as [->|]; [|discriminate].
  injection O as ->. destruct R2 as [(y & Ey & C) B]. exists n. repeat split; try lia. congruence.
Qed.

Lemma rel_crit h s o x c i p a : rel h s -> nth_error (objs s) o = Some x -> rel h (Mutex a (oput s o (MObj c (owner x) (mcount x))) (mput s i p)).
Proof.
  intros [R1 R2] E. split; cbn [objs].
  - intros o' x' E'. unfold oput in E'. apply nth_upd_in in E'. destruct E' as [[-> ->]|[_ E']]; [cbn [owner]; exact (R1 _ _ E)|exact (R1 _ _ E')].
  - destruct h as [[[j q] n]|]; [|exact I]. destruct R2 as [(y & Ey & C) B]. split; [|exact B]. unfold oput. rewrite nth_upd. destruct (Nat.eq_dec o q) as [->|N]; [rewrite E; eexists; split; [reflexivity|]; cbn [mcount]; congruence|eauto].
Qed.

Lemma rel_threads h s i p a : rel h s -> rel h (Mutex a (objs s) (mput s i p)).
Proof. intros R. exact R. Qed.

Section Mutex.
Variable errors : bool.
Local Notation mstep := (mstep errors).
Local Notation mrun := (mrun errors).

Definition inv (h : holder) (s : mutex) : Prop := rel h s /\ (tokens h s <= 1)%nat /\ (errors = false -> tokens h s = 1%nat) /\ apart h s.

Lemma count_cap h s n : inv h s -> (1 <= n)%nat -> (bnat (avail s) + tally busy (mthreads s) >= n)%nat -> h = None.
Proof. intros (_ & T & _) P Q. unfold tokens in T. destruct h; [cbn [hnat] in T; lia|reflexivity]. Qed.

(** Each step keeps the invariant and agrees with the abstract mutex. *)
Lemma mstep_inv h s e s' : inv h s -> mstep s e s' -> (forall i o, hdepth (hnext h e) i o < W32) ->
  inv (hnext h e) s' /\ (forall i o, hdepth (hnext h e) i o = match e with Some x => mx_depth1 (hdepth h i o) i o x | None => hdepth h i o end) /\
  (errors = false -> recursing h (mseen e) = Some (hnext h e)).
Proof.
  intros (R & T & TE & A) H W. unfold tokens in T, TE.
  assert (LT : forall i p q, nth_error (mthreads s) i = Some p -> (tally busy (mput s i q) + busy p = tally busy (mthreads s) + busy q)%nat) by (intros i p q E; exact (tally_upd busy (mthreads s) i p q E)).
  assert (LI : forall i p, nth_error (mthreads s) i = Some p -> (busy p <= tally busy (mthreads s))%nat) by (intros i p E; exact (tally_in busy (mthreads s) i p E)).
  assert (AP : forall i q a os, (forall o, q <> LWait o) -> apart h (Mutex a os (mput s i q))).
  { intros i q a os Hq i' o' E. cbn [mthreads] in E. unfold mput in E. apply nth_upd_in in E. destruct E as [[_ X]|[_ E]]; [destruct (Hq _ (eq_sym X))|exact (A _ _ E)]. }
  destruct H; cbn [hnext mseen recursing] in *.
  - (* call *) split; [|split; [reflexivity|reflexivity]]. specialize (LT i _ (LEnter o) H). cbn [busy] in LT. split; [exact R|]. unfold tokens; cbn [avail mthreads].
    split; [lia|]. split; [intro X; specialize (TE X); lia|apply AP; discriminate].
  - (* refused *) split; [|split; [reflexivity|congruence]]. specialize (LT i _ MIdle H). cbn [busy] in LT. split; [exact R|]. unfold tokens; cbn [avail mthreads].
    split; [lia|]. split; [intro X; specialize (TE X); lia|apply AP; discriminate].
  - (* lock *) split; [|split; reflexivity]. specialize (LT i _ (LInside o) H). cbn [busy] in LT. split; [exact (rel_crit _ _ _ _ _ _ _ _ R H0)|]. unfold tokens; cbn [avail mthreads].
    split; [lia|]. split; [intro X; specialize (TE X); lia|apply AP; discriminate].
  - (* again *) destruct (owner_holds _ _ _ _ _ R H0 H1) as (n & -> & C & B). specialize (W i o). cbn [hdepth] in W. rewrite !Nat.eqb_refl in W. cbn [andb] in W. specialize (LT i _ MIdle H). cbn [busy] in LT.
    split; [|split].
    + destruct R as [R1 R2]. split; [|].
      { split; cbn [objs].
        - intros o' x' E'. unfold oput in E'. apply nth_upd_in in E'. destruct E' as [[-> ->]|[_ E']]; [cbn [owner]; exact (R1 _ _ H0)|exact (R1 _ _ E')].
        - split; [|lia]. unfold oput. rewrite nth_upd. destruct (Nat.eq_dec o o) as [_|X]; [|congruence]. rewrite H0. eexists. split; [reflexivity|]. cbn [mcount]. rewrite C, N.mod_small by lia. reflexivity. }
      unfold tokens; cbn [avail mthreads hnat] in *. split; [lia|]. split; [intro X; specialize (TE X); lia|].
      intros i' o' E'. cbn [mthreads] in E'. unfold mput in E'. apply nth_upd_in in E'. destruct E' as [[_ X]|[_ E']]; [discriminate|exact (A _ _ E')].
    + intros i' o'. cbn [hdepth mx_depth1]. destruct (Nat.eqb i' i && Nat.eqb o' o) eqn:Q; [|reflexivity]. reflexivity.
    + intros _. rewrite !Nat.eqb_refl. reflexivity.
  - (* other *) split; [|split; reflexivity]. specialize (LT i _ (LWait o) H). cbn [busy] in LT. split; [exact (rel_crit _ _ _ _ _ _ _ _ R H0)|]. unfold tokens; cbn [avail mthreads].
    split; [lia|]. split; [intro X; specialize (TE X); lia|].
    intros i' o' E'. cbn [mthreads] in E'. unfold mput in E'. apply nth_upd_in in E'. destruct E' as [[<- X]|[_ E']]; [|exact (A _ _ E')]. injection X as ->. rewrite <- (proj1 R _ _ H0). exact H1.
  - (* wait *) split; [|split; reflexivity]. specialize (LT i _ (LGot o) H). cbn [busy] in LT. split; [exact R|]. unfold tokens; rewrite H0 in *; cbn [avail mthreads bnat] in *.
    split; [lia|]. split; [intro X; specialize (TE X); lia|apply AP; discriminate].
  - (* nowait *) split; [|split; [reflexivity|]].
    + specialize (LT i _ MIdle H). cbn [busy] in LT. split; [exact R|]. unfold tokens; cbn [avail mthreads].
      split; [lia|]. split; [intro X; specialize (TE X); lia|apply AP; discriminate].
    + intros _. destruct h as [[[j p] n]|]; [|reflexivity]. pose proof (A _ _ H) as Q. cbn [howner] in Q. destruct (Nat.eqb_spec i j) as [->|]; [|reflexivity]. destruct (Nat.eqb_spec o p) as [->|]; [congruence|reflexivity].
  - (* lock2 *) split; [|split; reflexivity]. specialize (LT i _ (LInside2 o) H). cbn [busy] in LT. split; [exact (rel_crit _ _ _ _ _ _ _ _ R H0)|]. unfold tokens; cbn [avail mthreads].
    split; [lia|]. split; [intro X; specialize (TE X); lia|apply AP; discriminate].
  - (* own *) pose proof (LI i _ H) as LI1. cbn [busy] in LI1. assert (h = None) as -> by (destruct h; [cbn [hnat] in T; lia|reflexivity]). specialize (LT i _ MIdle H). cbn [busy] in LT.
    split; [|split].
    + destruct R as [R1 R2]. split; [|].
      { split; cbn [objs].
        - intros o' x' E'. unfold oput in E'. apply nth_upd_in in E'. cbn [howner]. destruct E' as [[-> ->]|[Ne E']]; [rewrite Nat.eqb_refl; reflexivity|]. destruct (Nat.eqb_spec o' o) as [->|_]; [congruence|]. exact (R1 _ _ E').
        - split; [|split; [lia|reflexivity]]. unfold oput. rewrite nth_upd. destruct (Nat.eq_dec o o) as [_|X]; [|congruence]. rewrite H0. eexists. split; reflexivity. }
      unfold tokens; cbn [avail mthreads hnat] in *. split; [lia|]. split; [intro X; specialize (TE X); lia|].
      intros i' o' E'. cbn [mthreads] in E'. unfold mput in E'. apply nth_upd_in in E'. cbn [howner]. destruct E' as [[_ X]|[Ne E']]; [discriminate|]. destruct (Nat.eqb o' o); congruence.
    + intros i' o'. cbn [hdepth mx_depth1]. destruct (Nat.eqb i' i && Nat.eqb o' o); reflexivity.
    + reflexivity.
  - (* ucall *) split; [|split; reflexivity]. specialize (LT i _ (UEnter o all) H). cbn [busy] in LT. split; [exact R|]. unfold tokens; cbn [avail mthreads].
    split; [lia|]. split; [intro X; specialize (TE X); lia|apply AP; discriminate].
  - (* urefused *) split; [|split; [reflexivity|congruence]]. specialize (LT i _ MIdle H). cbn [busy] in LT. split; [exact R|]. unfold tokens; cbn [avail mthreads].
    split; [lia|]. split; [intro X; specialize (TE X); lia|apply AP; discriminate].
  - (* ulock *) split; [|split; reflexivity]. specialize (LT i _ (UInside o all) H). cbn [busy] in LT. split; [exact (rel_crit _ _ _ _ _ _ _ _ R H0)|]. unfold tokens; cbn [avail mthreads].
    split; [lia|]. split; [intro X; specialize (TE X); lia|apply AP; discriminate].
  - (* unot *) split; [|split; [reflexivity|]].
    + specialize (LT i _ MIdle H). cbn [busy] in LT. split; [exact (rel_crit _ _ _ _ _ _ _ _ R H0)|]. unfold tokens; cbn [avail mthreads].
      split; [lia|]. split; [intro X; specialize (TE X); lia|apply AP; discriminate].
    + intros _. destruct h as [[[j p] n]|]; [|reflexivity]. pose proof (proj1 R _ _ H0) as Q. cbn [howner] in Q. destruct (Nat.eqb_spec i j) as [->|]; [|reflexivity]. destruct (Nat.eqb_spec o p) as [->|]; [congruence|reflexivity].
  - (* dec *) destruct (owner_holds _ _ _ _ _ R H0 H1) as (n & -> & C & B). rewrite C in *. specialize (LT i _ MIdle H). cbn [busy] in LT.
    destruct all; [rewrite after_all in H2; congruence|]. rewrite after_one in * by exact B. cbn [orb] in *. destruct (N.eqb_spec n 1) as [X|X]; [exfalso; lia|].
    split; [|split].
    + destruct R as [R1 R2]. split; [|].
      { split; cbn [objs].
        - intros o' x' E'. unfold oput in E'. apply nth_upd_in in E'. destruct E' as [[-> ->]|[_ E']]; [cbn [owner]; exact (R1 _ _ H0)|exact (R1 _ _ E')].
        - split; [|lia]. unfold oput. rewrite nth_upd. destruct (Nat.eq_dec o o) as [_|Y]; [|congruence]. rewrite H0. eexists. split; reflexivity. }
      unfold tokens; cbn [avail mthreads hnat] in *. split; [lia|]. split; [intro Y; specialize (TE Y); lia|].
      intros i' o' E'. cbn [mthreads] in E'. unfold mput in E'. apply nth_upd_in in E'. destruct E' as [[_ Y]|[_ E']]; [discriminate|exact (A _ _ E')].
    + intros i' o'. cbn [hdepth mx_depth1]. destruct (Nat.eqb i' i && Nat.eqb o' o) eqn:Q; reflexivity.
    + intros _. rewrite !Nat.eqb_refl. reflexivity.
  - (* last *) destruct (owner_holds _ _ _ _ _ R H0 H1) as (n & -> & C & B). rewrite C in *. specialize (LT i _ (URelease o) H). cbn [busy] in LT.
    assert (Z : all || (n =? 1) = true). { destruct all; [reflexivity|]. rewrite after_one in H2 by exact B. cbn [orb]. apply N.eqb_eq. lia. } rewrite Z in *.
    split; [|split].
    + destruct R as [R1 R2]. split; [|].
      { split; cbn [objs]; [|exact I]. intros o' x' E'. unfold oput in E'. apply nth_upd_in in E'. destruct E' as [[-> ->]|[Ne E']]; [reflexivity|]. rewrite (R1 _ _ E'). cbn [howner]. destruct (Nat.eqb_spec o' o); [congruence|reflexivity]. }
      unfold tokens; cbn [avail mthreads hnat] in *. split; [lia|]. split; [intro Y; specialize (TE Y); lia|]. intros i' o' _. discriminate.
    + intros i' o'. cbn [hdepth mx_depth1]. destruct (Nat.eqb i' i && Nat.eqb o' o) eqn:Q; [|reflexivity]. destruct all; [reflexivity|]. cbn [orb] in Z. apply N.eqb_eq in Z. lia.
    + intros _. rewrite !Nat.eqb_refl. cbn [andb]. reflexivity.
  - (* release *) split; [|split; reflexivity]. pose proof (LI i _ H) as LI1. specialize (LT i _ MIdle H). cbn [busy] in LT, LI1. split; [exact (rel_crit _ _ _ _ _ _ _ _ R H0)|]. unfold tokens; cbn [avail mthreads bnat].
    destruct (avail s); cbn [bnat] in *; [lia|]. split; [lia|]. split; [intro X; specialize (TE X); lia|apply AP; discriminate].
  - (* norelease *) split; [|split; reflexivity]. specialize (LT i _ MIdle H). cbn [busy] in LT. split; [exact (rel_crit _ _ _ _ _ _ _ _ R H0)|]. unfold tokens; cbn [avail mthreads].
    split; [lia|]. split; [congruence|apply AP; discriminate].
Qed.

Lemma recursing_app tr : forall h tr2, recursing h (tr ++ tr2) = match recursing h tr with Some h1 => recursing h1 tr2 | None => None end.
Proof.
  induction tr as [|e tr IH]; intros h tr2; [reflexivity|]. cbn [app recursing].
  destruct e; destruct h as [[[j p] n]|]; try apply IH; try reflexivity; destruct (Nat.eqb i j && Nat.eqb o p); try apply IH; reflexivity.
Qed.

Lemma mx_depth_app tr e i o : mx_depth (tr ++ [e]) i o = mx_depth1 (mx_depth tr i o) i o e.
Proof. unfold mx_depth. rewrite fold_left_app. reflexivity. Qed.

Lemma nth_repeat_same {A} (a : A) n i p : nth_error (repeat a n) i = Some p -> p = a.
Proof. intro E. apply nth_error_In in E. apply repeat_spec in E. exact E. Qed.

Definition shallow (tr : list mx_event) : Prop := forall tr1 tr2 i o, tr = tr1 ++ tr2 -> mx_depth tr1 i o < W32.

Lemma mrun_hold nobj n tr s : mrun (mutex_init nobj n) tr s -> shallow tr ->
  exists h, inv h s /\ (forall i o, mx_depth tr i o = hdepth h i o) /\ (errors = false -> recursing None tr = Some h).
Proof.
  intro R. remember (mutex_init nobj n) as s0 eqn:E0. induction R as [s1|s1 tr s2 e s3 R IH St]; intro Sh.
  - subst s1. exists None. split; [|split; reflexivity]. split; [|split; [|split]].
    + split; [|exact I]. intros o x E. apply nth_repeat_same in E. subst x. reflexivity.
    + unfold tokens. cbn [avail mthreads mutex_init bnat hnat]. rewrite (tally_zero busy); [lia|]. intros i p E. apply nth_repeat_same in E. subst p. reflexivity.
    + intros _. unfold tokens. cbn [avail mthreads mutex_init bnat hnat]. rewrite (tally_zero busy); [lia|]. intros i p E. apply nth_repeat_same in E. subst p. reflexivity.
    + intros i o E. apply nth_repeat_same in E. discriminate.
  - destruct (IH E0) as (h & I1 & D1 & R1). { intros t1 t2 i o Et. apply (Sh t1 (t2 ++ mseen e)). rewrite Et, app_assoc. reflexivity. }
    assert (D2 : forall i o, mx_depth (tr ++ mseen e) i o = match e with Some x => mx_depth1 (mx_depth tr i o) i o x | None => mx_depth tr i o end).
    { intros i o. destruct e as [x|]; [apply mx_depth_app|]. cbn [mseen]. rewrite app_nil_r. reflexivity. }
    assert (W : forall i o, hdepth (hnext h e) i o < W32).
    { intros i o. assert (B : forall i o, mx_depth (tr ++ mseen e) i o < W32) by (intros; apply (Sh _ []); rewrite app_nil_r; reflexivity).
      assert (B0 : forall i o, hdepth h i o < W32) by (intros; rewrite <- D1; apply (Sh tr (mseen e)); reflexivity).
      destruct e as [[j p|j p|j p al|j p]|]; cbn [hnext]; try apply B0.
      - destruct h as [[[j1 p1] n1]|].
        + (* the step must be m_again *)
          specialize (B j p). rewrite D2, D1 in B. cbn [mx_depth1] in B. rewrite !Nat.eqb_refl in B. cbn [andb] in B.
          assert (j1 = j /\ p1 = p) as [-> ->].
          { inversion St; subst.
            - destruct (owner_holds _ _ _ _ _ (proj1 I1) H3 H5) as (n' & X & _). injection X; auto.
            - exfalso. pose proof (tally_in busy _ _ _ H2) as T. cbn [busy] in T. destruct I1 as (_ & T1 & _). unfold tokens in T1. cbn [hnat] in T1. lia. }
          cbn [hdepth] in B |- *. rewrite !Nat.eqb_refl in B. cbn [andb] in B. destruct (Nat.eqb i j && Nat.eqb o p); [exact B|reflexivity].
        + cbn [hdepth]. destruct (Nat.eqb i j && Nat.eqb o p); reflexivity.
      - destruct h as [[[j1 p1] n1]|]; [|reflexivity]. specialize (B0 i o). cbn [hdepth] in B0. destruct (al || (n1 =? 1)); [reflexivity|]. cbn [hdepth]. destruct (Nat.eqb i j1 && Nat.eqb o p1); lia. }
    destruct (mstep_inv h s2 e s3 I1 St W) as (I2 & D3 & R2). exists (hnext h e). split; [exact I2|]. split.
    + intros i o. change (match e with Some x => [x] | None => [] end) with (mseen e). rewrite D2, D3. destruct e; rewrite D1; reflexivity.
    + intro X. change (match e with Some x => [x] | None => [] end) with (mseen e). rewrite recursing_app, (R1 X). exact (R2 X).
Qed.

Lemma mrun_front s e s1 tr s2 : mstep s e s1 -> mrun s1 tr s2 -> mrun s (mseen e ++ tr) s2.
Proof.
  intros St R. induction R as [s1|s1 tr s2 e2 s3 R IH St2].
  - rewrite app_nil_r. exact (mrun_step _ s [] s e s1 (mrun_nil _ s) St).
  - rewrite app_assoc. exact (mrun_step _ _ _ _ _ _ (IH St) St2).
Qed.
End Mutex.
