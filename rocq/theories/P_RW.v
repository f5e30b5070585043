(** Proofs about the reader-writer lock. *)
From Verif Require Import Base S_Sync M_Sem M_RW P_Sem.
Open Scope N_scope.

(** ** Sums over threads *)
Fixpoint sumto (n : nat) (f : nat -> N) : N := match n with O => 0 | S m => f m + sumto m f end.

Lemma sumto_same n f g : (forall i, f i = g i) -> sumto n f = sumto n g.
Proof. intro H. induction n as [|n IH]; [reflexivity|]. cbn [sumto]. rewrite H, IH. reflexivity. Qed.
Lemma sumto_at n f g i : (forall j, j <> i -> g j = f j) -> (i < n)%nat -> sumto n g + f i = sumto n f + g i.
Proof.
  intros H. induction n as [|n IH]; intro L; [lia|]. cbn [sumto]. destruct (Nat.eq_dec i n) as [->|N].
  - assert (E : sumto n g = sumto n f). { clear IH L. assert (G : forall m, (m <= n)%nat -> sumto m g = sumto m f). { induction m as [|m IH]; intro L; [reflexivity|]. cbn [sumto]. rewrite IH, H by lia. reflexivity. } apply G. lia. }
    rewrite E. lia.
  - specialize (IH ltac:(lia)). rewrite (H n) by congruence. lia.
Qed.
Lemma sumto_in n f i : (i < n)%nat -> f i <= sumto n f.
Proof. induction n as [|n IH]; intro L; [lia|]. cbn [sumto]. destruct (Nat.eq_dec i n) as [->|N]; [lia|]. specialize (IH ltac:(lia)). lia. Qed.
Lemma sumto_two n f i j : (i < n)%nat -> (j < n)%nat -> i <> j -> f i + f j <= sumto n f.
Proof.
  induction n as [|n IH]; intros Li Lj Ne; [lia|]. cbn [sumto].
  destruct (Nat.eq_dec i n) as [->|Ni]; [pose proof (sumto_in n f j ltac:(lia)); lia|]. destruct (Nat.eq_dec j n) as [->|Nj]; [pose proof (sumto_in n f i ltac:(lia)); lia|].
  specialize (IH ltac:(lia) ltac:(lia) Ne). lia.
Qed.
Lemma sumto_zero n f : (forall i, f i = 0) -> sumto n f = 0.
Proof. intro H. induction n as [|n IH]; [reflexivity|]. cbn [sumto]. rewrite H, IH. reflexivity. Qed.

(** ** What threads have *)
Definition b2n (b : bool) : N := if b then 1 else 0.
Definition hasww (p : rwpc) : nat := match p with R2 | R2x | R3 | R3x | R4 | R5 | R6 | W2 | W2x | V1 => 1%nat | _ => O end.
Definition hasrc (p : rwpc) : nat := match p with R3 | R3x | R4 | R5 | U2 | U2x | U3 | U5 => 1%nat | _ => O end.
Definition pend (p : rwpc) : nat := match p with R5 | R6 => 1%nat | _ => O end.
Definition upre (p : rwpc) : nat := match p with U1 | U2 => 1%nat | _ => O end.
Definition turn (p : rwpc) : nat := match p with R4 | U3 => 1%nat | _ => O end.
Definition atr4 (p : rwpc) : nat := match p with R4 => 1%nat | _ => O end.

Definition xseen (e : option rw_event) : list rw_event := match e with Some x => [x] | None => [] end.

Lemma reading_app tr e i : reading (tr ++ [e]) i = rw_read1 i (reading tr i) e.
Proof. unfold reading. rewrite fold_left_app. reflexivity. Qed.
Lemma writing_app tr e i : writing (tr ++ [e]) i = rw_write1 i (writing tr i) e.
Proof. unfold writing. rewrite fold_left_app. reflexivity. Qed.
Lemma outstanding_app tr e : outstanding (tr ++ [e]) = match e with RGot _ => outstanding tr + 1 | RPut _ => outstanding tr - 1 | _ => outstanding tr end.
Proof. unfold outstanding. rewrite fold_left_app. reflexivity. Qed.

Lemma sr_got n tr i : (i < n)%nat -> sumto n (reading (tr ++ [RGot i])) = sumto n (reading tr) + 1.
Proof.
  intro L. pose proof (sumto_at n (reading tr) (reading (tr ++ [RGot i])) i) as H. rewrite !reading_app in H. cbn [rw_read1] in H. rewrite Nat.eqb_refl in H.
  assert (forall j, j <> i -> reading (tr ++ [RGot i]) j = reading tr j). { intros j Ne. rewrite reading_app. cbn [rw_read1]. destruct (Nat.eqb_spec j i); [congruence|reflexivity]. }
  specialize (H H0 L). lia.
Qed.
Lemma sr_unlock n tr i : (i < n)%nat -> 0 < reading tr i -> sumto n (reading (tr ++ [RUnlock i])) + 1 = sumto n (reading tr).
Proof.
  intros L P. pose proof (sumto_at n (reading tr) (reading (tr ++ [RUnlock i])) i) as H. rewrite !reading_app in H. cbn [rw_read1] in H. rewrite Nat.eqb_refl in H.
  assert (forall j, j <> i -> reading (tr ++ [RUnlock i]) j = reading tr j). { intros j Ne. rewrite reading_app. cbn [rw_read1]. destruct (Nat.eqb_spec j i); [congruence|reflexivity]. }
  specialize (H H0 L). lia.
Qed.
Lemma sw_got n tr i : (i < n)%nat -> sumto n (writing (tr ++ [WGot i])) = sumto n (writing tr) + 1.
Proof.
  intro L. pose proof (sumto_at n (writing tr) (writing (tr ++ [WGot i])) i) as H. rewrite !writing_app in H. cbn [rw_write1] in H. rewrite Nat.eqb_refl in H.
  assert (forall j, j <> i -> writing (tr ++ [WGot i]) j = writing tr j). { intros j Ne. rewrite writing_app. cbn [rw_write1]. destruct (Nat.eqb_spec j i); [congruence|reflexivity]. }
  specialize (H H0 L). lia.
Qed.
Lemma sw_unlock n tr i : (i < n)%nat -> 0 < writing tr i -> sumto n (writing (tr ++ [WUnlock i])) + 1 = sumto n (writing tr).
Proof.
  intros L P. pose proof (sumto_at n (writing tr) (writing (tr ++ [WUnlock i])) i) as H. rewrite !writing_app in H. cbn [rw_write1] in H. rewrite Nat.eqb_refl in H.
  assert (forall j, j <> i -> writing (tr ++ [WUnlock i]) j = writing tr j). { intros j Ne. rewrite writing_app. cbn [rw_write1]. destruct (Nat.eqb_spec j i); [congruence|reflexivity]. }
  specialize (H H0 L). lia.
Qed.
Lemma sr_same n tr e : (forall i, e <> RGot i) -> (forall i, e <> RUnlock i) -> sumto n (reading (tr ++ [e])) = sumto n (reading tr).
Proof. intros A B. apply sumto_same. intro i. rewrite reading_app. destruct e as [j| | | |j| |]; try reflexivity; [destruct (A j eq_refl)|destruct (B j eq_refl)]. Qed.
Lemma sw_same n tr e : (forall i, e <> WGot i) -> (forall i, e <> WUnlock i) -> sumto n (writing (tr ++ [e])) = sumto n (writing tr).
Proof. intros A B. apply sumto_same. intro i. rewrite writing_app. destruct e as [| |j| | | |j]; try reflexivity; [destruct (A j eq_refl)|destruct (B j eq_refl)]. Qed.

Section RW.
Variable errors : bool.
Variable n : nat.
Local Notation xstep := (xstep errors).
Local Notation xrun := (xrun errors).

Definition xinv (tr : list rw_event) (s : rwlock) : Prop :=
  length (xthreads s) = n /\
  b2n (ww s) + N.of_nat (tally hasww (xthreads s)) + sumto n (writing tr) <= 1 /\
  b2n (rc s) + N.of_nat (tally hasrc (xthreads s)) <= 1 /\
  rcount s = outstanding tr + N.of_nat (tally pend (xthreads s)) /\
  sumto n (reading tr) + N.of_nat (tally upre (xthreads s)) <= outstanding tr /\
  (sig s = true -> rcount s = 0 /\ tally atr4 (xthreads s) = O) /\
  (0 < sumto n (writing tr) -> rcount s = 0) /\
  (errors = false ->
    b2n (ww s) + N.of_nat (tally hasww (xthreads s)) + sumto n (writing tr) = 1 /\
    b2n (rc s) + N.of_nat (tally hasrc (xthreads s)) = 1 /\
    sumto n (reading tr) + N.of_nat (tally upre (xthreads s)) = outstanding tr /\
    (rcount s = 0 -> sig s = true \/ (0 < tally turn (xthreads s))%nat)).

Lemma xstep_inv tr s e s' : xinv tr s -> xstep s e s' ->
  (match e with Some (RUnlock i) => 0 < reading tr i | Some (WUnlock i) => 0 < writing tr i | _ => True end) ->
  outstanding tr + N.of_nat n < W32 -> xinv (tr ++ xseen e) s'.
Proof.
  intros (L & A & B & C & C2 & D & F & E) H Ds W.
  assert (PB : (tally pend (xthreads s) <= n)%nat). { rewrite <- L. clear. induction (xthreads s) as [|p l IH]; [cbn; lia|]. cbn [tally fold_right length]. unfold tally in IH. destruct p; cbn [pend]; lia. }
  assert (PL : forall l, (tally turn l <= tally hasrc l)%nat). { clear. induction l as [|p l IH]; [cbn; lia|]. cbn [tally fold_right]. unfold tally in IH. destruct p; cbn [turn hasrc]; lia. }
  assert (PQ : forall l, (tally atr4 l <= tally turn l)%nat). { clear. induction l as [|p l IH]; [cbn; lia|]. cbn [tally fold_right]. unfold tally in IH. destruct p; cbn [atr4 turn]; lia. }
  assert (PP : forall l, (tally pend l + tally atr4 l <= length l)%nat). { clear. induction l as [|p l IH]; [cbn; lia|]. cbn [tally fold_right length]. unfold tally in IH. destruct p; cbn [atr4 pend]; lia. }
  pose proof (PL (xthreads s)) as PL1. pose proof (PQ (xthreads s)) as PQ1. pose proof (PP (xthreads s)) as PP1.
  destruct H; unfold xinv; cbn [ww rc rcount sig xthreads xseen] in *; unfold at_ in *;
    match goal with H : nth_error (xthreads s) ?i = Some ?p |- context [xput s ?i ?q] =>
      assert (Li : (i < n)%nat) by (rewrite <- L; apply nth_error_Some; congruence);
      assert (L' : length (xput s i q) = n) by (unfold xput; rewrite upd_length; exact L);
      pose proof (tally_upd hasww (xthreads s) i p q H) as T1; pose proof (tally_upd hasrc (xthreads s) i p q H) as T2;
      pose proof (tally_upd pend (xthreads s) i p q H) as T3; pose proof (tally_upd upre (xthreads s) i p q H) as T4;
      pose proof (tally_upd turn (xthreads s) i p q H) as T5; pose proof (tally_upd atr4 (xthreads s) i p q H) as T6;
      pose proof (tally_in hasww (xthreads s) i p H) as I1; pose proof (tally_in hasrc (xthreads s) i p H) as I2;
      pose proof (tally_in atr4 (xthreads s) i p H) as I3; pose proof (tally_in upre (xthreads s) i p H) as I4;
      fold (xput s i q) in T1, T2, T3, T4, T5, T6;
      cbn [hasww hasrc pend upre turn atr4] in T1, T2, T3, T4, T5, T6, I1, I2, I3, I4;
      pose proof (PL (xput s i q)) as PL2; pose proof (PQ (xput s i q)) as PQ2
    end;
    rewrite ?app_nil_r, ?outstanding_app;
    repeat match goal with
      | Li : (?i < n)%nat |- context [sumto n (reading (tr ++ [RGot ?i]))] => rewrite (sr_got n tr i Li)
      | Li : (?i < n)%nat |- context [sumto n (reading (tr ++ [RUnlock ?i]))] => let X := fresh "SR" in pose proof (sr_unlock n tr i Li Ds) as X; generalize dependent (sumto n (reading (tr ++ [RUnlock i]))); intros
      | Li : (?i < n)%nat |- context [sumto n (writing (tr ++ [WGot ?i]))] => rewrite (sw_got n tr i Li)
      | Li : (?i < n)%nat |- context [sumto n (writing (tr ++ [WUnlock ?i]))] => let X := fresh "SW" in pose proof (sw_unlock n tr i Li Ds) as X; generalize dependent (sumto n (writing (tr ++ [WUnlock i]))); intros
      | |- context [sumto n (reading (tr ++ [?e]))] => rewrite (sr_same n tr e) by discriminate
      | |- context [sumto n (writing (tr ++ [?e]))] => rewrite (sw_same n tr e) by discriminate
      end.
  all: try match goal with Hr : freed _ _ _ |- _ => destruct Hr as [b|b Er] end.
  all: try match goal with Hb : _ = true |- _ => rewrite Hb in * end.
  all: try (rewrite (N.mod_small (rcount s + 1)) by lia).
  all: cbn [b2n] in *.
  all: split; [exact L'|].
  all: destruct (ww s), (rc s), (sig s); cbn [b2n] in *.
  all: try lia.
  all: try (specialize (D eq_refl)).
  all: try (exfalso; lia).
  all: repeat match goal with |- _ /\ _ => split end; try lia; try (intro; split; lia); try (intro; discriminate).
  all: try (intro Er2; first [congruence | specialize (E Er2); destruct E as (E1 & E2 & E3 & E4)]).
  all: try (exfalso; lia).
  all: try (repeat split; try lia; intros; first [left; reflexivity | right; lia | destruct (E4 ltac:(lia)); [left; assumption | right; lia] | exfalso; lia]).
Qed.

Lemma nth_repeat_x m i p : nth_error (repeat XIdle m) i = Some p -> p = XIdle.
Proof. intro E. apply nth_error_In in E. apply repeat_spec in E. exact E. Qed.

Lemma xrun_inv tr s : xrun (rw_init n) tr s -> disciplined tr -> (forall tr1 tr2, tr = tr1 ++ tr2 -> outstanding tr1 + N.of_nat n < W32) -> xinv tr s.
Proof.
  intro R. remember (rw_init n) as s0 eqn:E0. induction R as [s1|s1 tr s2 e s3 R IH St]; intros Ds W.
  - subst s1. assert (Z : forall f, f XIdle = O -> tally f (repeat XIdle n) = O) by (intros f Hf; apply tally_zero; intros i p E; apply nth_repeat_x in E; subst p; exact Hf).
    unfold xinv. cbn [rw_init ww rc rcount sig xthreads]. rewrite !Z by reflexivity. rewrite repeat_length, !sumto_zero by reflexivity. cbn [b2n]. unfold outstanding. cbn [fold_left].
    repeat split; try lia; try (intros _; left; reflexivity).
  - change (match e with Some x => [x] | None => [] end) with (xseen e) in *. apply (xstep_inv tr s2 e s3).
    + apply (IH E0).
      * intros t1 x t2 Et. apply (Ds t1 x (t2 ++ xseen e)). rewrite Et, <- app_assoc. reflexivity.
      * intros t1 t2 Et. apply (W t1 (t2 ++ xseen e)). rewrite Et, app_assoc. reflexivity.
    + exact St.
    + destruct e as [x|]; [|exact I]. pose proof (Ds tr x [] eq_refl) as Q. destruct x; auto.
    + apply (W tr (xseen e)). reflexivity.
Qed.

Lemma xrun_front s e s1 tr s2 : xstep s e s1 -> xrun s1 tr s2 -> xrun s (xseen e ++ tr) s2.
Proof.
  intros St R. induction R as [s1|s1 tr s2 e2 s3 R IH St2].
  - rewrite app_nil_r. exact (xrun_step _ s [] s e s1 (xrun_nil _ s) St).
  - rewrite app_assoc. exact (xrun_step _ _ _ _ _ _ (IH St) St2).
Qed.

(** Only threads of the execution hold anything. *)
Lemma xrun_threads tr s i : xrun (rw_init n) tr s -> (n <= i)%nat -> reading tr i = 0 /\ writing tr i = 0.
Proof.
  intros R Hi. remember (rw_init n) as s0 eqn:E0. assert (G : length (xthreads s) = n /\ reading tr i = 0 /\ writing tr i = 0); [|exact (proj2 G)].
  induction R as [s1|s1 tr s2 e s3 R IH St].
  - subst s1. cbn [rw_init xthreads]. rewrite repeat_length. split; [reflexivity|split; reflexivity].
  - destruct (IH E0) as (L & A & B). change (match e with Some x => [x] | None => [] end) with (xseen e).
    assert (Ne : forall j p, at_ s2 j p -> Nat.eqb i j = false). { intros j p Hj. apply Nat.eqb_neq. intros <-. unfold at_ in Hj. assert (i < length (xthreads s2))%nat by (apply nth_error_Some; congruence). lia. }
    destruct St; cbn [xthreads xseen]; unfold xput; rewrite upd_length; (split; [exact L|]); rewrite ?app_nil_r, ?reading_app, ?writing_app; cbn [rw_read1 rw_write1]; rewrite ?(Ne _ _ H), ?A, ?B; split; reflexivity.
Qed.
End RW.
