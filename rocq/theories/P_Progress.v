(** Progress of the reader-writer locks and of the mutex: proofs. *)
From Verif Require Import Base S_Sync M_Sem M_RW M_WinRW P_Sem P_RW P_WinRW.
Open Scope N_scope.

Lemma sumto_pos n f : 0 < sumto n f -> exists i, (i < n)%nat /\ 0 < f i.
Proof.
  induction n as [|n IH]; cbn [sumto]; [lia|]. intro H. destruct (N.eq_dec (f n) 0) as [E|E]; [|exists n; lia].
  destruct IH as (i & L & P); [lia|]. exists i. split; [lia|exact P].
Qed.

Lemma put_same {A} (l : list A) i p q : nth_error l i = Some p -> nth_error (upd l i q) i = Some q.
Proof. intro E. rewrite nth_upd. destruct (Nat.eq_dec i i); [rewrite E; reflexivity|congruence]. Qed.
Lemma put_other {A} (l : list A) i j q : i <> j -> nth_error (upd l i q) j = nth_error l j.
Proof. intro E. rewrite nth_upd. destruct (Nat.eq_dec i j); [congruence|reflexivity]. Qed.

(** ** POSIX *)
(** A wait that is given up. *)
Definition quits (p q : rwpc) : Prop :=
  match p, q with R1, XIdle | R2, R2x | W1, XIdle | W2, W2x => True | _, _ => False end.
(** A step inside a call that is not given up. *)
Definition goes_on (s : rwlock) (e : option rw_event) (s' : rwlock) : Prop :=
  xstep false s e s' /\ forall i p q, at_ s i p -> at_ s' i q -> (p = XIdle -> q = XIdle) /\ ~ quits p q.

Definition work (p : rwpc) : nat :=
  match p with
  | XIdle => 0 | R1 => 6 | R2 => 5 | R3 => 4 | R4 => 3 | R5 => 2 | R6 => 1 | R2x => 1 | R3x => 2
  | W1 => 2 | W2 => 1 | W2x => 1 | U1 => 4 | U2 => 3 | U2x => 1 | U3 => 2 | U5 => 1 | V1 => 1
  end.

Lemma goes_less s e s' : goes_on s e s' -> (tally work (xthreads s') < tally work (xthreads s))%nat.
Proof.
  intros [St G]. destruct St; try discriminate; unfold at_ in *; cbn [xthreads] in *; unfold xput in *;
    match goal with H : nth_error (xthreads s) ?i = Some ?p |- context [upd _ ?i ?q] =>
      pose proof (tally_upd work (xthreads s) i p q H) as T; specialize (G i p q H (put_same _ _ _ _ H)); cbn [work] in T end; cbn [quits] in G;
    first [lia | destruct G as [G1 G2]; exfalso; first [discriminate (G1 eq_refl) | exact (G2 I)]].
Qed.

Lemma goes_intro s e s' i p q : xstep false s e s' -> xthreads s' = upd (xthreads s) i q -> at_ s i p -> p <> XIdle -> ~ quits p q -> goes_on s e s'.
Proof.
  intros St E A NI Q. split; [exact St|]. intros j p' q' Aj Aj'. unfold at_ in *. rewrite E in Aj'. destruct (Nat.eq_dec i j) as [<-|Ne].
  - rewrite (put_same _ _ _ _ A) in Aj'. split; [congruence|]. congruence.
  - rewrite (put_other _ _ _ _ Ne) in Aj'. assert (p' = q') by congruence. subst q'. split; [auto|]. destruct p'; cbn; tauto.
Qed.

Definition stuck (s : rwlock) : Prop := forall e s', ~ goes_on s e s'.

(** Where a thread can be when nobody goes on. *)
Lemma stuck_pc s : stuck s -> forall i p, at_ s i p ->
  match p with
  | XIdle => True
  | R1 | W1 => ww s = false
  | W2 => sig s = false
  | R2 | U1 => rc s = false
  | _ => False
  end.
Proof.
  intros K i p A. destruct p; try exact I;
    try (match goal with |- ?b = false => destruct b eqn:B; [exfalso|reflexivity] end);
    match goal with |- False => idtac end.
  all: try (first [ refine (K _ _ (goes_intro _ _ _ i _ _ (x_r1 false s i A B) eq_refl A _ _)); [discriminate|cbn; tauto]
    | refine (K _ _ (goes_intro _ _ _ i _ _ (x_r2 false s i A B) eq_refl A _ _)); [discriminate|cbn; tauto]
    | refine (K _ _ (goes_intro _ _ _ i _ _ (x_r2x false s i true A (rel_ok _ _)) eq_refl A _ _)); [discriminate|cbn; tauto]
    | refine (K _ _ (goes_intro _ _ _ i _ _ (x_r3 false s i A) eq_refl A _ _)); [discriminate|cbn; tauto]
    | refine (K _ _ (goes_intro _ _ _ i _ _ (x_r3x false s i true A (rel_ok _ _)) eq_refl A _ _)); [discriminate|cbn; tauto]
    | refine (K _ _ (goes_intro _ _ _ i _ _ (x_r4 false s i A) eq_refl A _ _)); [discriminate|cbn; tauto]
    | refine (K _ _ (goes_intro _ _ _ i _ _ (x_r5 false s i true A (rel_ok _ _)) eq_refl A _ _)); [discriminate|cbn; tauto]
    | refine (K _ _ (goes_intro _ _ _ i _ _ (x_r6 false s i true A (rel_ok _ _)) eq_refl A _ _)); [discriminate|cbn; tauto]
    | refine (K _ _ (goes_intro _ _ _ i _ _ (x_w1 false s i A B) eq_refl A _ _)); [discriminate|cbn; tauto]
    | refine (K _ _ (goes_intro _ _ _ i _ _ (x_w2 false s i A B) eq_refl A _ _)); [discriminate|cbn; tauto]
    | refine (K _ _ (goes_intro _ _ _ i _ _ (x_w2x false s i true A (rel_ok _ _)) eq_refl A _ _)); [discriminate|cbn; tauto]
    | refine (K _ _ (goes_intro _ _ _ i _ _ (x_u1 false s i A B) eq_refl A _ _)); [discriminate|cbn; tauto]
    | refine (K _ _ (goes_intro _ _ _ i _ _ (x_u2x false s i true A (rel_ok _ _)) eq_refl A _ _)); [discriminate|cbn; tauto]
    | refine (K _ _ (goes_intro _ _ _ i _ _ (x_u5 false s i true A (rel_ok _ _)) eq_refl A _ _)); [discriminate|cbn; tauto]
    | refine (K _ _ (goes_intro _ _ _ i _ _ (x_v1 false s i true A (rel_ok _ _)) eq_refl A _ _)); [discriminate|cbn; tauto] ]).
  - destruct (N.eq_dec (rcount s) 0) as [Z|Z].
    + refine (K _ _ (goes_intro _ _ _ i _ _ (x_u2no false s i A Z) eq_refl A _ _)); [discriminate|cbn; tauto].
    + refine (K _ _ (goes_intro _ _ _ i _ _ (x_u2 false s i A Z) eq_refl A _ _)); [discriminate|cbn; tauto].
  - destruct (N.eq_dec (rcount s) 0) as [Z|Z].
    + refine (K _ _ (goes_intro _ _ _ i _ _ (x_u3fire false s i A Z) eq_refl A _ _)); [discriminate|cbn; tauto].
    + refine (K _ _ (goes_intro _ _ _ i _ _ (x_u3 false s i A Z) eq_refl A _ _)); [discriminate|cbn; tauto].
Qed.

Lemma stuck_waits n tr s : xinv false n tr s -> stuck s ->
  (forall i p, at_ s i p -> p = XIdle \/ p = R1 \/ p = W1 \/ p = W2) /\
  (forall i, at_ s i W2 -> exists k, 0 < reading tr k) /\
  (forall i, at_ s i R1 \/ at_ s i W1 -> (exists j, 0 < writing tr j) \/ exists j, at_ s j W2).
Proof.
  intros (L & _ & _ & C & _ & _ & _ & E) K. destruct (E eq_refl) as (E1 & E2 & E3 & E4). pose proof (stuck_pc s K) as P.
  assert (Rc : rc s = true).
  { destruct (rc s) eqn:B; [reflexivity|]. exfalso. cbn [b2n] in E2. destruct (tally_pos hasrc (xthreads s)) as (j & a & Ej & Ha); [lia|]. specialize (P j a Ej). destruct a; cbn in Ha; try lia; exact P. }
  assert (Q : forall i p, at_ s i p -> p = XIdle \/ p = R1 \/ p = W1 \/ p = W2).
  { intros i p A. specialize (P i p A). destruct p; auto; try contradiction; congruence. }
  assert (Z : forall f, f XIdle = O -> f R1 = O -> f W1 = O -> f W2 = O -> tally f (xthreads s) = O).
  { intros f F1 F2 F3 F4. apply tally_zero. intros i p A. destruct (Q i p A) as [->|[->|[->| ->]]]; assumption. }
  split; [exact Q|]. split.
  - intros i A. pose proof (P i W2 A) as Sg. cbn in Sg. rewrite (Z pend) in C by reflexivity. rewrite (Z upre) in E3 by reflexivity. rewrite (Z turn) in E4 by reflexivity.
    destruct (sumto_pos n (reading tr)) as (k & _ & Hk); [|exists k; exact Hk]. destruct (N.eq_dec (rcount s) 0) as [R0|R0]; [|lia]. destruct (E4 R0) as [X|X]; [congruence|lia].
  - intros i A. assert (Sw : ww s = false) by (destruct A as [A|A]; exact (P i _ A)). rewrite Sw in E1. cbn [b2n] in E1.
    destruct (N.eq_dec (sumto n (writing tr)) 0) as [W0|W0].
    + right. destruct (tally_pos hasww (xthreads s)) as (j & a & Ej & Ha); [lia|]. exists j. destruct (Q j a Ej) as [->|[->|[->| ->]]]; cbn in Ha; try lia. exact Ej.
    + left. destruct (sumto_pos n (writing tr)) as (k & _ & Hk); [lia|]. exists k. exact Hk.
Qed.

(** ** Windows *)
Definition yquits (p q : wrpc) : Prop :=
  match p, q with Y1, YIdle | Y2, Y2x | Y3, Y3x | Z1, YIdle | Z2, Z2x => True | _, _ => False end.
Definition ygoes_on (s : wrlock) (e : option rw_event) (s' : wrlock) : Prop :=
  ystep false s e s' /\ forall i p q, yat s i p -> yat s' i q -> (p = YIdle -> q = YIdle) /\ ~ yquits p q.
Definition ystuck (s : wrlock) : Prop := forall e s', ~ ygoes_on s e s'.

Definition ywork (p : wrpc) : nat :=
  match p with
  | YIdle => 0 | Y1 => 6 | Y2 => 5 | Y3 => 4 | Y4 => 3 | Y5 => 2 | Y6 => 1 | Y2x => 1 | Y3x => 2 | Y4x => 3
  | Z1 => 2 | Z2 => 1 | Z2x => 1 | T1 => 4 | T2 => 3 | T2x => 1 | T3 _ => 2 | T5 => 1 | O1 => 1
  end.

Lemma ygoes_less s e s' : ygoes_on s e s' -> (tally ywork (ythreads s') < tally ywork (ythreads s))%nat.
Proof.
  intros [St G]. destruct St; try discriminate; unfold yat in *; cbn [ythreads] in *; unfold yput in *;
    match goal with H : nth_error (ythreads s) ?i = Some ?p |- context [upd _ ?i ?q] =>
      pose proof (tally_upd ywork (ythreads s) i p q H) as T; specialize (G i p q H (put_same _ _ _ _ H)); cbn [ywork] in T end; cbn [yquits] in G;
    first [lia | destruct G as [G1 G2]; exfalso; first [discriminate (G1 eq_refl) | exact (G2 I)]].
Qed.

Lemma ygoes_intro s e s' i p q : ystep false s e s' -> ythreads s' = upd (ythreads s) i q -> yat s i p -> p <> YIdle -> ~ yquits p q -> ygoes_on s e s'.
Proof.
  intros St E A NI Q. split; [exact St|]. intros j p' q' Aj Aj'. unfold yat in *. rewrite E in Aj'. destruct (Nat.eq_dec i j) as [<-|Ne].
  - rewrite (put_same _ _ _ _ A) in Aj'. split; [congruence|]. congruence.
  - rewrite (put_other _ _ _ _ Ne) in Aj'. assert (p' = q') by congruence. subst q'. split; [auto|]. destruct p'; cbn; tauto.
Qed.

Lemma ystuck_pc s : ystuck s -> forall i p, yat s i p ->
  match p with
  | YIdle => True
  | Y1 | Z1 => yww s = false
  | Z2 => ysig s = false
  | Y2 | T1 => yrm s = false
  | Y3 => yrs s = 0
  | _ => False
  end.
Proof.
  intros K i p A. destruct p; try exact I;
    try (match goal with |- ?b = false => destruct b eqn:B; [exfalso|reflexivity] end);
    try (match goal with |- yrs s = 0 => destruct (N.eq_dec (yrs s) 0) as [B|B]; [exact B|exfalso] end);
    match goal with |- False => idtac end.
  all: try (first [ refine (K _ _ (ygoes_intro _ _ _ i _ _ (y_1 false s i A B) eq_refl A _ _)); [discriminate|cbn; tauto]
    | refine (K _ _ (ygoes_intro _ _ _ i _ _ (y_2 false s i A B) eq_refl A _ _)); [discriminate|cbn; tauto]
    | refine (K _ _ (ygoes_intro _ _ _ i _ _ (y_2x false s i true A (gv_ok _ _)) eq_refl A _ _)); [discriminate|cbn; tauto]
    | refine (K _ _ (ygoes_intro _ _ _ i _ _ (y_3 false s i A ltac:(lia)) eq_refl A _ _)); [discriminate|cbn; tauto]
    | refine (K _ _ (ygoes_intro _ _ _ i _ _ (y_3x false s i true A (gv_ok _ _)) eq_refl A _ _)); [discriminate|cbn; tauto]
    | refine (K _ _ (ygoes_intro _ _ _ i _ _ (y_4 false s i A) eq_refl A _ _)); [discriminate|cbn; tauto]
    | refine (K _ _ (ygoes_intro _ _ _ i _ _ (y_5 false s i true A (gv_ok _ _)) eq_refl A _ _)); [discriminate|cbn; tauto]
    | refine (K _ _ (ygoes_intro _ _ _ i _ _ (y_6 false s i true A (gv_ok _ _)) eq_refl A _ _)); [discriminate|cbn; tauto]
    | refine (K _ _ (ygoes_intro _ _ _ i _ _ (y_w1 false s i A B) eq_refl A _ _)); [discriminate|cbn; tauto]
    | refine (K _ _ (ygoes_intro _ _ _ i _ _ (y_w2 false s i A B) eq_refl A _ _)); [discriminate|cbn; tauto]
    | refine (K _ _ (ygoes_intro _ _ _ i _ _ (y_w2x false s i true A (gv_ok _ _)) eq_refl A _ _)); [discriminate|cbn; tauto]
    | refine (K _ _ (ygoes_intro _ _ _ i _ _ (y_u1 false s i A B) eq_refl A _ _)); [discriminate|cbn; tauto]
    | refine (K _ _ (ygoes_intro _ _ _ i _ _ (y_u2x false s i true A (gv_ok _ _)) eq_refl A _ _)); [discriminate|cbn; tauto]
    | refine (K _ _ (ygoes_intro _ _ _ i _ _ (y_u5 false s i true A (gv_ok _ _)) eq_refl A _ _)); [discriminate|cbn; tauto]
    | refine (K _ _ (ygoes_intro _ _ _ i _ _ (y_v1 false s i true A (gv_ok _ _)) eq_refl A _ _)); [discriminate|cbn; tauto] ]).
  - destruct (N.lt_ge_cases (yrs s) LONG_MAX) as [Z|Z].
    + refine (K _ _ (ygoes_intro _ _ _ i _ _ (y_4x false s i _ A (gb_ok _ _ Z)) eq_refl A _ _)); [discriminate|cbn; tauto].
    + refine (K _ _ (ygoes_intro _ _ _ i _ _ (y_4x false s i _ A (gb_full _ _ Z)) eq_refl A _ _)); [discriminate|cbn; tauto].
  - destruct (N.lt_ge_cases (yrs s) LONG_MAX) as [Z|Z].
    + refine (K _ _ (ygoes_intro _ _ _ i _ _ (y_u2 false s i A Z) eq_refl A _ _)); [discriminate|cbn; tauto].
    + refine (K _ _ (ygoes_intro _ _ _ i _ _ (y_u2no false s i A (or_introl Z)) eq_refl A _ _)); [discriminate|cbn; tauto].
  - destruct last.
    + refine (K _ _ (ygoes_intro _ _ _ i _ _ (y_u3fire false s i A) eq_refl A _ _)); [discriminate|cbn; tauto].
    + refine (K _ _ (ygoes_intro _ _ _ i _ _ (y_u3 false s i A) eq_refl A _ _)); [discriminate|cbn; tauto].
Qed.

Lemma ystuck_waits n tr s : yinv false n tr s -> ystuck s -> outstanding tr < LONG_MAX ->
  (forall i p, yat s i p -> p = YIdle \/ p = Y1 \/ p = Z1 \/ p = Z2) /\
  (forall i, yat s i Z2 -> exists k, 0 < reading tr k) /\
  (forall i, yat s i Y1 \/ yat s i Z1 -> (exists j, 0 < writing tr j) \/ exists j, yat s j Z2).
Proof.
  intros (L & _ & _ & _ & _ & _ & _ & E) K Out. destruct (E eq_refl) as (E1 & E2 & E3 & E4 & E5). pose proof (ystuck_pc s K) as P.
  assert (N3 : forall i, ~ yat s i Y3).
  { intros i A. pose proof (P i Y3 A) as R0. cbn in R0.
    assert (Tp : tally ypend (ythreads s) = O) by (apply tally_zero; intros j p Ej; specialize (P j p Ej); destruct p; try reflexivity; contradiction).
    assert (Tt : tally ytook (ythreads s) = O) by (apply tally_zero; intros j p Ej; specialize (P j p Ej); destruct p; try reflexivity; contradiction). lia. }
  assert (Rc : yrm s = true).
  { destruct (yrm s) eqn:B; [reflexivity|]. exfalso. cbn [b2n] in E2. destruct (tally_pos yhasrm (ythreads s)) as (j & a & Ej & Ha); [lia|]. pose proof (P j a Ej) as Pj.
    destruct a; cbn in Ha; try lia; try exact Pj. exact (N3 j Ej). }
  assert (Q : forall i p, yat s i p -> p = YIdle \/ p = Y1 \/ p = Z1 \/ p = Z2).
  { intros i p A. pose proof (P i p A) as Pi. destruct p; auto; try contradiction; try congruence. }
  assert (Z : forall f, f YIdle = O -> f Y1 = O -> f Z1 = O -> f Z2 = O -> tally f (ythreads s) = O).
  { intros f F1 F2 F3 F4. apply tally_zero. intros i p A. destruct (Q i p A) as [->|[->|[->| ->]]]; assumption. }
  split; [exact Q|]. split.
  - intros i A. pose proof (P i Z2 A) as Sg. cbn in Sg. rewrite (Z yupre) in E4 by reflexivity. rewrite (Z ypend), (Z ylast) in E5 by reflexivity.
    destruct (sumto_pos n (reading tr)) as (k & _ & Hk); [|exists k; exact Hk]. destruct (N.eq_dec (outstanding tr) 0) as [R0|R0]; [|lia]. destruct (E5 R0 eq_refl) as [X|X]; [congruence|lia].
  - intros i A. assert (Sw : yww s = false) by (destruct A as [A|A]; exact (P i _ A)). rewrite Sw in E1. cbn [b2n] in E1.
    destruct (N.eq_dec (sumto n (writing tr)) 0) as [W0|W0].
    + right. destruct (tally_pos yhasww (ythreads s)) as (j & a & Ej & Ha); [lia|]. exists j. destruct (Q j a Ej) as [->|[->|[->| ->]]]; cbn in Ha; try lia. exact Ej.
    + left. destruct (sumto_pos n (writing tr)) as (k & _ & Hk); [lia|]. exists k. exact Hk.
Qed.

(** ** Who is in front of whom *)
Lemma xrun_app er s0 t s t' s' : xrun er s0 t s -> xrun er s t' s' -> xrun er s0 (t ++ t') s'.
Proof.
  intros R1 R2. induction R2 as [s|s t' s1 e s2 R2 IH St]; [rewrite app_nil_r; exact R1|]. rewrite app_assoc. exact (xrun_step _ _ _ _ _ _ (IH R1) St).
Qed.
Lemma yrun_app er s0 t s t' s' : yrun er s0 t s -> yrun er s t' s' -> yrun er s0 (t ++ t') s'.
Proof.
  intros R1 R2. induction R2 as [s|s t' s1 e s2 R2 IH St]; [rewrite app_nil_r; exact R1|]. rewrite app_assoc. exact (yrun_step _ _ _ _ _ _ (IH R1) St).
Qed.

Lemma disciplined_app a b : disciplined (a ++ b) -> disciplined a.
Proof. intros D t1 e t2 E. apply (D t1 e (t2 ++ b)). rewrite E, <- app_assoc. reflexivity. Qed.

Definition waiting (s : rwlock) (i : nat) : Prop := at_ s i W2 \/ at_ s i W2x.
Definition ywaiting (s : wrlock) (i : nat) : Prop := yat s i Z2 \/ yat s i Z2x.

Lemma wait_step er n tr s e s' i : xinv er n tr s -> xstep er s e s' -> waiting s i -> e <> Some (WGot i) -> e <> Some (WNot i) ->
  waiting s' i /\ forall j, e <> Some (RGot j) /\ e <> Some (WGot j).
Proof.
  intros (_ & A & _) St W NG NN.
  assert (T : forall j p, at_ s j p -> j <> i -> hasww p = O).
  { intros j p Aj Ne. destruct (hasww p) eqn:Hp; [reflexivity|]. exfalso. destruct W as [W|W]; pose proof (tally_two hasww _ _ _ _ _ Aj W Ne) as T2; cbn [hasww] in T2; lia. }
  assert (Keep : forall k q st, xthreads st = upd (xthreads s) k q -> k <> i -> waiting st i).
  { intros k q st E Ne. unfold waiting, at_ in *. rewrite E, put_other by exact Ne. exact W. }
  destruct St.
  all: match goal with Ha : at_ _ ?k ?p |- _ => rename k into kk; destruct (Nat.eq_dec kk i) as [->|Ne];
    [unfold waiting, at_ in *; destruct W as [W|W]; rewrite Ha in W; try discriminate W; try congruence
    |split; [eapply (Keep kk); [reflexivity|exact Ne]|pose proof (T kk p Ha Ne) as Th; cbn [hasww] in Th; try discriminate Th; intro; split; discriminate]] end.
  split; [right; cbn [xthreads]; unfold xput; eapply put_same; eassumption|]. intro; split; discriminate.
Qed.

Lemma ywait_step er n tr s e s' i : yinv er n tr s -> ystep er s e s' -> ywaiting s i -> e <> Some (WGot i) -> e <> Some (WNot i) ->
  ywaiting s' i /\ forall j, e <> Some (RGot j) /\ e <> Some (WGot j).
Proof.
  intros (_ & A & _) St W NG NN.
  assert (T : forall j p, yat s j p -> j <> i -> yhasww p = O).
  { intros j p Aj Ne. destruct (yhasww p) eqn:Hp; [reflexivity|]. exfalso. destruct W as [W|W]; pose proof (tally_two yhasww _ _ _ _ _ Aj W Ne) as T2; cbn [yhasww] in T2; lia. }
  assert (Keep : forall k q st, ythreads st = upd (ythreads s) k q -> k <> i -> ywaiting st i).
  { intros k q st E Ne. unfold ywaiting, yat in *. rewrite E, put_other by exact Ne. exact W. }
  destruct St.
  all: match goal with Ha : yat _ ?k ?p |- _ => rename k into kk; destruct (Nat.eq_dec kk i) as [->|Ne];
    [unfold ywaiting, yat in *; destruct W as [W|W]; rewrite Ha in W; try discriminate W; try congruence
    |split; [eapply (Keep kk); [reflexivity|exact Ne]|pose proof (T kk p Ha Ne) as Th; cbn [yhasww] in Th; try discriminate Th; intro; split; discriminate]] end.
  split; [right; cbn [ythreads]; unfold yput; eapply put_same; eassumption|]. intro; split; discriminate.
Qed.
