(** Proofs about the semaphore. *)
From Verif Require Import Base S_Sync M_Sem.
Open Scope N_scope.

(** ** Lists of threads *)
Section Tally.
Context {A : Type}.
Variable f : A -> nat.
Definition tally (l : list A) : nat := fold_right (fun x n => f x + n)%nat O l.

Lemma tally_upd l : forall i a b, nth_error l i = Some a -> (tally (upd l i b) + f a = tally l + f b)%nat.
Proof.
  induction l as [|x l IH]; intros [|i] a b E; try discriminate; cbn [upd tally fold_right].
  - injection E as ->. lia.
  - cbn [nth_error] in E. specialize (IH i a b E). fold (tally l). fold (tally (upd l i b)). lia.
Qed.

Lemma tally_in l : forall i a, nth_error l i = Some a -> (f a <= tally l)%nat.
Proof.
  induction l as [|x l IH]; intros [|i] a E; try discriminate; cbn [tally fold_right]; fold (tally l).
  - injection E as ->. lia.
  - cbn [nth_error] in E. specialize (IH i a E). lia.
Qed.

Lemma tally_two l : forall i j a b, nth_error l i = Some a -> nth_error l j = Some b -> i <> j -> (f a + f b <= tally l)%nat.
Proof.
  induction l as [|x l IH]; intros [|i] [|j] a b Ea Eb H; try discriminate; try congruence; cbn [tally fold_right]; fold (tally l).
  - injection Ea as ->. pose proof (tally_in l j b Eb). lia.
  - injection Eb as ->. pose proof (tally_in l i a Ea). lia.
  - cbn [nth_error] in *. specialize (IH i j a b Ea Eb ltac:(congruence)). lia.
Qed.

Lemma tally_zero l : (forall i a, nth_error l i = Some a -> f a = O) -> tally l = O.
Proof.
  induction l as [|x l IH]; intro H; [reflexivity|]. cbn [tally fold_right]; fold (tally l). rewrite (H O x eq_refl), IH; [reflexivity|]. intros i a E. exact (H (S i) a E).
Qed.

Lemma tally_pos l : (0 < tally l)%nat -> exists i a, nth_error l i = Some a /\ (0 < f a)%nat.
Proof.
  induction l as [|x l IH]; intro H; [cbn in H; lia|]. cbn [tally fold_right] in H; fold (tally l) in H. destruct (f x) eqn:E; [|exists O, x; split; [reflexivity|lia]].
  destruct (IH ltac:(lia)) as (i & a & E1 & E2). exists (S i), a. split; assumption.
Qed.
End Tally.

Lemma nth_upd {A} (l : list A) i j v : nth_error (upd l i v) j = if Nat.eq_dec i j then match nth_error l i with Some _ => Some v | None => None end else nth_error l j.
Proof.
  revert i j. induction l as [|x l IH]; intros i j.
  - cbn [upd]. assert (N1 : forall k, @nth_error A [] k = None) by (intros []; reflexivity). rewrite !N1. destruct (Nat.eq_dec i j); reflexivity.
  - destruct i as [|i], j as [|j]; cbn [upd nth_error]; [reflexivity| | |].
    + destruct (Nat.eq_dec 0 (S j)) as [X|_]; [discriminate|reflexivity].
    + destruct (Nat.eq_dec (S i) 0) as [X|_]; [discriminate|reflexivity].
    + rewrite IH. destruct (Nat.eq_dec i j); destruct (Nat.eq_dec (S i) (S j)); congruence || reflexivity.
Qed.

Lemma nth_upd_in {A} (l : list A) i j v p : nth_error (upd l i v) j = Some p -> (i = j /\ p = v) \/ (i <> j /\ nth_error l j = Some p).
Proof. rewrite nth_upd. destruct (Nat.eq_dec i j) as [->|H]; [destruct (nth_error l j); [left; split; congruence|discriminate]|right; auto]. Qed.

(** ** The semaphore *)
Definition locked (p : pc) : bool := match p with Inside _ | Back _ _ | RInside => true | _ => false end.
Definition awake (p : pc) : nat := match p with Woken _ true | Back _ true => 1%nat | _ => O end.
Definition asleep (p : pc) : bool := match p with Asleep _ => true | _ => false end.

Lemma woken1_locked p q : woken1 p q -> locked q = locked p.
Proof. intros [|]; reflexivity. Qed.

Lemma wakes_nth l l' i q : wakes l l' -> nth_error l' i = Some q -> exists p, nth_error l i = Some p /\ woken1 p q.
Proof.
  intros [F _]. revert i. induction F as [|x y l l' W F IH]; intros [|i] E; try discriminate; cbn [nth_error] in *; [injection E as <-; eauto|exact (IH i E)].
Qed.

Lemma wakes_nth' l l' i p : wakes l l' -> nth_error l i = Some p -> exists q, nth_error l' i = Some q /\ woken1 p q.
Proof.
  intros [F _]. revert i. induction F as [|x y l l' W F IH]; intros [|i] E; try discriminate; cbn [nth_error] in *; [injection E as <-; eauto|exact (IH i E)].
Qed.

Lemma woken1_awake p q : woken1 p q -> (awake p <= awake q)%nat.
Proof. intros [|]; cbn; lia. Qed.

Lemma wakes_tally l l' : Forall2 woken1 l l' -> (tally awake l <= tally awake l')%nat.
Proof. induction 1 as [|x y l l' W F IH]; [cbn; lia|]. cbn [tally fold_right]. apply woken1_awake in W. unfold tally in IH. lia. Qed.

Lemma wakes_more l l' : Forall2 woken1 l l' -> forall i w, nth_error l i = Some (Asleep w) -> nth_error l' i = Some (Woken w true) -> (tally awake l < tally awake l')%nat.
Proof.
  induction 1 as [|x y l l' W F IH]; intros [|i] w E E'; try discriminate; cbn [tally fold_right]; cbn [nth_error] in *.
  - injection E as ->. injection E' as ->. pose proof (wakes_tally _ _ F). unfold tally in *. cbn. lia.
  - specialize (IH i w E E'). apply woken1_awake in W. unfold tally in *. lia.
Qed.

Lemma bump_ok c max : max < W32 - 1 -> c <= max -> bump c max = N.min max (c + 1).
Proof.
  intros M C. unfold bump. rewrite N.mod_small by (unfold W32 in *; lia). destruct (N.ltb_spec max (c + 1)); lia.
Qed.

Section Sem.
Variables max : N.
Variables lossy timed clockfail : bool.
Local Notation step := (step max lossy timed clockfail).
Local Notation run := (run max lossy timed clockfail).

(** Who is inside has the lock. *)
Definition excl (s : sem) : Prop := forall i p, nth_error (threads s) i = Some p -> locked p = true -> held s = Some i.

Lemma excl_step s e s' : excl s -> step s e s' -> excl s'.
Proof.
  intros X H. destruct H; intros j p Hj Hp; cbn [threads held] in *; unfold put in *; try (apply nth_upd_in in Hj; destruct Hj as [[-> ->]|[Hne Hj]]; [try discriminate; try reflexivity|]);
    try (pose proof (X j p Hj Hp) as Y);
    try (match goal with E : nth_error (threads _) _ = Some _ |- _ => pose proof (X _ _ E eq_refl) as Z end); try congruence; try exact Y.
  (* release *)
  destruct (wakes_nth _ _ _ _ H0 Hj) as (p0 & E0 & W). rewrite (woken1_locked _ _ W) in Hp. pose proof (X j p0 E0 Hp). congruence.
Qed.

(** The count is what an atomic semaphore has. *)
Lemma counting_app tr : forall c tr2, counting max c (tr ++ tr2) = match counting max c tr with Some c1 => counting max c1 tr2 | None => None end.
Proof.
  induction tr as [|e tr IH]; intros c tr2; [reflexivity|]. cbn [app counting]. destruct e; [destruct (c =? 0); [reflexivity|apply IH]|apply IH|destruct (prev =? c); [apply IH|reflexivity]].
Qed.

Lemma count_step s e s' : max < W32 - 1 -> count s <= max -> step s e s' -> count s' <= max /\ counting max (count s) (match e with Some x => [x] | None => [] end) = Some (count s').
Proof.
  intros M C H. destruct H; cbn [count counting]; try (split; [assumption|reflexivity]).
  - destruct (N.eqb_spec (count s) 0); [congruence|]. split; [lia|reflexivity].
  - destruct (N.eqb_spec (count s) 0); [congruence|]. split; [lia|reflexivity].
  - rewrite N.eqb_refl, bump_ok by assumption. split; [lia|reflexivity].
Qed.

Lemma run_count s tr s' : max < W32 - 1 -> count s <= max -> run s tr s' -> count s' <= max /\ counting max (count s) tr = Some (count s').
Proof.
  intros M C R. induction R as [s|s tr s1 e s2 R IH St]; [split; [exact C|reflexivity]|]. destruct (IH C) as [C1 E1].
  destruct (count_step s1 e s2 M C1 St) as [C2 E2]. split; [exact C2|]. rewrite counting_app, E1. exact E2.
Qed.

Lemma counting_sum tr : forall c c', counting max c tr = Some c' -> c <= max -> c' + grants tr = c + effective max tr.
Proof.
  induction tr as [|e tr IH]; intros c c' E C; [injection E as <-; cbn; lia|]. cbn [counting] in E. destruct e as [i|i|i prev]; cbn [grants effective].
  - destruct (N.eqb_spec c 0) as [_|Hc]; [discriminate|]. specialize (IH _ _ E ltac:(lia)). lia.
  - exact (IH _ _ E C).
  - destruct (N.eqb_spec prev c) as [->|_]; [|discriminate]. specialize (IH _ _ E ltac:(lia)). destruct (N.ltb_spec c max); lia.
Qed.

(** Sleepers have been taken care of. *)
Definition cared (s : sem) : Prop := (exists i w, nth_error (threads s) i = Some (Asleep w)) -> count s <= N.of_nat (tally awake (threads s)).
Definition only (s : sem) : Prop := timed = false -> forall i p, nth_error (threads s) i = Some p ->
  match p with Enter w | Inside w | Asleep w | Woken w _ | Back w _ => w <> WTimed | _ => True end.

Lemma only_step s e s' : only s -> step s e s' -> only s'.
Proof.
  intros O H T. specialize (O T). destruct H; intros j p Hj; cbn [threads] in *; unfold put in *;
    try (apply nth_upd_in in Hj; destruct Hj as [[-> ->]|[Hne Hj]]; [|exact (O j p Hj)]);
    try exact I; try (match goal with E : nth_error (threads _) _ = Some _ |- _ => exact (O _ _ E) end).
  - intros ->. specialize (H0 eq_refl). congruence.
  - apply nth_upd_in in Hj. destruct Hj as [[-> ->]|[Hne Hj]]; [exact I|]. destruct (wakes_nth _ _ _ _ H0 Hj) as (p0 & E0 & W). specialize (O _ _ E0). destruct W; exact O.
Qed.

Lemma cared_step s e s' : lossy = false \/ timed = false -> only s -> cared s -> step s e s' -> cared s'.
Proof.
  intros L O C H (j & w' & Hj). unfold cared in C.
  assert (Old : forall i p q t, nth_error (threads s) i = Some p -> asleep q = false -> t = upd (threads s) i q -> nth_error t j = Some (Asleep w') -> nth_error (threads s) j = Some (Asleep w')).
  { intros i p q t Ei Hq -> Hn. apply nth_upd_in in Hn. destruct Hn as [[_ E]|[_ E]]; [subst q; discriminate|exact E]. }
  destruct H; cbn [count threads] in *; unfold put in *;
    try (match goal with E : nth_error (threads s) ?i = Some ?p |- context [upd (threads s) ?i ?q] => pose proof (tally_upd awake (threads s) i p q E) as T; cbn [awake] in T end);
    try (match goal with E : nth_error (threads s) ?i = Some ?p, Hx : nth_error (upd (threads s) ?i ?q) j = _ |- _ => pose proof (fun X => C (ex_intro _ j (ex_intro _ w' (Old i p q _ E X eq_refl Hx)))) as K; cbn [asleep] in K end);
    try (specialize (K eq_refl); lia); try (rewrite H0; lia).
  - (* s_lost *) destruct L as [L|L]; [congruence|]. exfalso. exact (O L _ _ H eq_refl).
  - (* release *)
    assert (Hs : nth_error l j = Some (Asleep w')) by (apply nth_upd_in in Hj; destruct Hj as [[_ E]|[_ E]]; [discriminate|exact E]).
    destruct (wakes_nth _ _ _ _ H0 Hs) as (p0 & E0 & W). inversion W; subst.
    specialize (C (ex_intro _ j (ex_intro _ w' E0))). destruct H0 as [F Wk]. destruct (Wk (ex_intro _ w' (nth_error_In _ _ E0))) as (i2 & w2 & Ea & Eb).
    pose proof (wakes_more _ _ F i2 w2 Ea Eb) as M. destruct (wakes_nth' (threads s) l i RInside (conj F Wk) H) as (q & Eq & Wq). inversion Wq; subst.
    pose proof (tally_upd awake l i RInside Idle Eq) as T. cbn [awake] in T.
    assert (B : bump (count s) max <= count s + 1).
    { unfold bump. assert ((count s + 1) mod W32 <= count s + 1) by (apply N.mod_le; discriminate). destruct (N.ltb_spec max ((count s + 1) mod W32)); lia. }
    lia.
Qed.

(** Nobody keeps the lock. *)
Definition released (s : sem) : Prop := forall i, held s = Some i -> exists p, nth_error (threads s) i = Some p /\ locked p = true.

Lemma released_step s e s' : clockfail = false -> excl s -> released s -> step s e s' -> released s'.
Proof.
  intros F X R H j Hj. destruct H; cbn [threads held] in *; unfold put in *; try congruence;
    try (injection Hj as <-; rewrite nth_upd; destruct (Nat.eq_dec i i) as [_|Y]; [|congruence]; match goal with E : nth_error _ _ = Some _ |- _ => rewrite E end; eexists; split; reflexivity);
    destruct (R j Hj) as (p & E1 & E2); rewrite nth_upd; destruct (Nat.eq_dec i j) as [->|Hne]; try (exists p; split; assumption); exfalso;
    rewrite H in E1; injection E1 as <-; discriminate.
Qed.

(** Executions *)
Definition seen (e : option sem_event) : list sem_event := match e with Some x => [x] | None => [] end.

Lemma run_front s e s1 tr s2 : step s e s1 -> run s1 tr s2 -> run s (seen e ++ tr) s2.
Proof.
  intros St R. induction R as [s1|s1 tr s2 e2 s3 R IH St2].
  - rewrite app_nil_r. exact (run_step _ _ _ _ s [] s e s1 (run_nil _ _ _ _ s) St).
  - rewrite app_assoc. exact (run_step _ _ _ _ _ _ _ _ _ (IH St) St2).
Qed.

Lemma run_inv (P : sem -> Prop) : (forall s e s', P s -> step s e s' -> P s') -> forall s tr s', P s -> run s tr s' -> P s'.
Proof. intros H s tr s' Ps R. induction R as [|s tr s1 e s2 R IH St]; [exact Ps|]. exact (H _ _ _ (IH Ps) St). Qed.

Lemma nth_repeat_idle n i p : nth_error (repeat Idle n) i = Some p -> p = Idle.
Proof. intro E. apply nth_error_In in E. apply repeat_spec in E. exact E. Qed.

Lemma init_excl start n : excl (sem_init start max n).
Proof. intros i p E L. apply nth_repeat_idle in E. subst p. discriminate. Qed.
Lemma init_only start n : only (sem_init start max n).
Proof. intros _ i p E. apply nth_repeat_idle in E. subst p. exact I. Qed.
Lemma init_cared start n : cared (sem_init start max n).
Proof. intros (i & w & E). apply nth_repeat_idle in E. discriminate. Qed.
Lemma init_released start n : released (sem_init start max n).
Proof. intros i E. discriminate. Qed.

Lemma run_cared start n tr s : lossy = false \/ timed = false -> run (sem_init start max n) tr s -> cared s.
Proof.
  intros L R. apply (run_inv (fun s => only s /\ cared s)) in R; [exact (proj2 R)| |split; [apply init_only|apply init_cared]].
  intros s0 e s1 [O C] St. split; [exact (only_step _ _ _ O St)|exact (cared_step _ _ _ L O C St)].
Qed.

Lemma run_excl start n tr s : run (sem_init start max n) tr s -> excl s.
Proof. intro R. exact (run_inv excl excl_step _ _ _ (init_excl start n) R). Qed.

Lemma run_released start n tr s : clockfail = false -> run (sem_init start max n) tr s -> released s.
Proof.
  intros L R. apply (run_inv (fun s => excl s /\ released s)) in R; [exact (proj2 R)| |split; [apply init_excl|apply init_released]].
  intros s0 e s1 [O C] St. split; [exact (excl_step _ _ _ O St)|exact (released_step _ _ _ L O C St)].
Qed.
End Sem.
