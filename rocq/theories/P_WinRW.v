(** Proofs about the reader-writer lock on Windows. *)
From Verif Require Import Base S_Sync M_WinRW P_Sem P_RW.
Open Scope N_scope.

Definition yhasww (p : wrpc) : nat := match p with Y2 | Y2x | Y3 | Y3x | Y4 | Y4x | Y5 | Y6 | Z2 | Z2x | O1 => 1%nat | _ => O end.
Definition yhasrm (p : wrpc) : nat := match p with Y3 | Y3x | Y4 | Y4x | Y5 | T2 | T2x | T3 _ | T5 => 1%nat | _ => O end.
Definition ypend (p : wrpc) : nat := match p with Y5 | Y6 => 1%nat | _ => O end.
Definition ytook (p : wrpc) : nat := match p with Y4 | Y4x => 1%nat | _ => O end.
Definition yupre (p : wrpc) : nat := match p with T1 | T2 => 1%nat | _ => O end.
Definition yback (p : wrpc) : nat := match p with T2 | T2x | T3 false | T5 => 1%nat | _ => O end.
Definition ylast (p : wrpc) : nat := match p with T3 true => 1%nat | _ => O end.

Section WinRW.
Variable errors : bool.
Variable n : nat.
Local Notation ystep := (ystep errors).
Local Notation yrun := (yrun errors).

Definition yinv (tr : list rw_event) (s : wrlock) : Prop :=
  length (ythreads s) = n /\
  b2n (yww s) + N.of_nat (tally yhasww (ythreads s)) + sumto n (writing tr) <= 1 /\
  b2n (yrm s) + N.of_nat (tally yhasrm (ythreads s)) <= 1 /\
  yrs s + outstanding tr + N.of_nat (tally ypend (ythreads s)) + N.of_nat (tally ytook (ythreads s)) <= LONG_MAX /\
  sumto n (reading tr) + N.of_nat (tally yupre (ythreads s)) <= outstanding tr /\
  (ysig s = true \/ (0 < tally ylast (ythreads s))%nat -> outstanding tr = 0 /\ tally ypend (ythreads s) = O) /\
  (0 < sumto n (writing tr) -> outstanding tr = 0 /\ tally ypend (ythreads s) = O) /\
  (errors = false ->
    b2n (yww s) + N.of_nat (tally yhasww (ythreads s)) + sumto n (writing tr) = 1 /\
    b2n (yrm s) + N.of_nat (tally yhasrm (ythreads s)) = 1 /\
    yrs s + outstanding tr + N.of_nat (tally ypend (ythreads s)) + N.of_nat (tally ytook (ythreads s)) = LONG_MAX /\
    sumto n (reading tr) + N.of_nat (tally yupre (ythreads s)) = outstanding tr /\
    (outstanding tr = 0 -> tally ypend (ythreads s) = O -> ysig s = true \/ (0 < tally ylast (ythreads s))%nat)).

Lemma ystep_inv tr s e s' : yinv tr s -> ystep s e s' ->
  (match e with Some (RUnlock i) => 0 < reading tr i | Some (WUnlock i) => 0 < writing tr i | _ => True end) ->
  yinv (tr ++ xseen e) s'.
Proof.
  intros (L & A & B & C & C2 & D & F & E) H Ds.
  assert (PL : forall l, (tally yback l + tally ylast l + tally ytook l <= tally yhasrm l)%nat). { clear. induction l as [|p l IH]; [cbn; lia|]. cbn [tally fold_right]. unfold tally in IH. destruct p as [| | | | | | | | | | | | | | | |[|]| |]; cbn [yback ylast ytook yhasrm]; lia. }
  assert (PP : forall l, (tally ypend l + tally ytook l <= tally yhasww l)%nat). { clear. induction l as [|p l IH]; [cbn; lia|]. cbn [tally fold_right]. unfold tally in IH. destruct p; cbn [ypend ytook yhasww]; lia. }
  pose proof (PL (ythreads s)) as PL1. pose proof (PP (ythreads s)) as PP1.
  destruct H; unfold yinv; cbn [yww yrm yrs ysig ythreads xseen] in *; unfold yat in *;
    match goal with H : nth_error (ythreads s) ?i = Some ?p |- context [yput s ?i ?q] =>
      assert (Li : (i < n)%nat) by (rewrite <- L; apply nth_error_Some; congruence);
      assert (L' : length (yput s i q) = n) by (unfold yput; rewrite upd_length; exact L);
      pose proof (tally_upd yhasww (ythreads s) i p q H) as T1; pose proof (tally_upd yhasrm (ythreads s) i p q H) as T2;
      pose proof (tally_upd ypend (ythreads s) i p q H) as T3; pose proof (tally_upd yupre (ythreads s) i p q H) as T4;
      pose proof (tally_upd ylast (ythreads s) i p q H) as T5; pose proof (tally_upd ytook (ythreads s) i p q H) as T6;
      pose proof (tally_in yhasww (ythreads s) i p H) as I1; pose proof (tally_in yhasrm (ythreads s) i p H) as I2;
      pose proof (tally_in ylast (ythreads s) i p H) as I3; pose proof (tally_in yupre (ythreads s) i p H) as I4;
      pose proof (tally_in ytook (ythreads s) i p H) as I5; pose proof (tally_in ypend (ythreads s) i p H) as I6; pose proof (tally_in yback (ythreads s) i p H) as I7;
      fold (yput s i q) in T1, T2, T3, T4, T5, T6;
      cbn [yhasww yhasrm ypend yupre ylast ytook yback] in T1, T2, T3, T4, T5, T6, I1, I2, I3, I4, I5, I6, I7;
      pose proof (PL (yput s i q)) as PL2; pose proof (PP (yput s i q)) as PP2
    end;
    rewrite ?app_nil_r, ?outstanding_app;
    repeat match goal with
      | Li : (?i < n)%nat |- context [sumto n (reading (tr ++ [RGot ?i]))] => rewrite (sr_got n tr i Li)
      | Li : (?i < n)%nat |- context [sumto n (reading (tr ++ [RUnlock ?i]))] => let X := fresh "SR" in pose proof (sr_unlock n tr i Li Ds) as X; generalize dependent (sumto n (reading (tr ++ [RUnlock i]))); intros
      | Li : (?i < n)%nat |- context [sumto n (writing (tr ++ [WGot ?i]))] => rewrite (sw_got n tr i Li)
      | Li : (?i < n)%nat |- context [sumto n (writing (tr ++ [WUnlock ?i]))] => let X := fresh "SW" in pose proof (sw_unlock n tr i Li Ds) as X; generalize dependent (sumto n (writing (tr ++ [WUnlock i]))); intros
      | |- context [sumto n (reading (tr ++ [?e]))] => rewrite (sr_same n tr e) by discriminate
      | |- context [sumto n (writing (tr ++ [?e]))] => rewrite (sw_same n tr e) by discriminate
      end.
  all: try match goal with Hr : given _ _ _ |- _ => destruct Hr as [b|b Er] end.
  all: try match goal with Hr : given_back _ _ _ |- _ => destruct Hr as [c Lc|c Lc|c Er] end.
  all: try match goal with Hb : yww _ = true |- _ => rewrite Hb in * | Hb : yrm _ = true |- _ => rewrite Hb in * | Hb : ysig _ = true |- _ => rewrite Hb in * end.
  all: try match goal with |- context [yrs ?z =? LONG_MAX - 1] => destruct (N.eqb_spec (yrs z) (LONG_MAX - 1)) as [Vl|Vl] end.
  all: cbn [b2n ylast] in *.
  all: split; [exact L'|].
  all: destruct (yww s), (yrm s), (ysig s); cbn [b2n] in *.
  all: try lia.
  all: try (specialize (D (or_introl eq_refl))).
  all: try (exfalso; lia).
  all: unfold LONG_MAX in *.
  all: repeat match goal with |- _ /\ _ => split end; try lia; try (intro X; destruct X as [X|X]; [discriminate|]; exfalso; lia).
  all: try (intros [X|X]; [first [discriminate|split; lia]|try discriminate]; try (split; lia); try (specialize (D (or_intror ltac:(lia))); split; lia)).
  all: try (intros; split; lia).
  all: try (intro Er2; first [congruence | specialize (E Er2); destruct E as (E1 & E2 & E3 & E4 & E5)]).
  all: try (exfalso; lia).
  all: try (repeat split; try lia; intros; first [left; reflexivity | right; lia | destruct (E5 ltac:(lia) ltac:(lia)); [left; assumption | right; lia] | exfalso; lia]).
Qed.

Lemma yrun_inv tr s : yrun (wr_init n) tr s -> disciplined tr -> yinv tr s.
Proof.
  intro R. remember (wr_init n) as s0 eqn:E0. induction R as [s1|s1 tr s2 e s3 R IH St]; intros Ds.
  - subst s1. assert (Z : forall f, f YIdle = O -> tally f (repeat YIdle n) = O). { intros f Hf. apply tally_zero. intros i p E. apply nth_error_In in E. apply repeat_spec in E. subst p. exact Hf. }
    unfold yinv. cbn [wr_init yww yrm yrs ysig ythreads]. rewrite !Z by reflexivity. rewrite repeat_length, !sumto_zero by reflexivity. cbn [b2n]. unfold outstanding. cbn [fold_left].
    repeat split; try lia; try (intros; left; reflexivity).
  - change (match e with Some x => [x] | None => [] end) with (xseen e) in *. apply (ystep_inv tr s2 e s3).
    + apply (IH E0). intros t1 x t2 Et. apply (Ds t1 x (t2 ++ xseen e)). rewrite Et, <- app_assoc. reflexivity.
    + exact St.
    + destruct e as [x|]; [|exact I]. pose proof (Ds tr x [] eq_refl) as Q. destruct x; auto.
Qed.

Lemma yrun_front s e s1 tr s2 : ystep s e s1 -> yrun s1 tr s2 -> yrun s (xseen e ++ tr) s2.
Proof.
  intros St R. induction R as [s1|s1 tr s2 e2 s3 R IH St2].
  - rewrite app_nil_r. exact (yrun_step _ s [] s e s1 (yrun_nil _ s) St).
  - rewrite app_assoc. exact (yrun_step _ _ _ _ _ _ (IH St) St2).
Qed.

(** Only threads of the execution hold anything. *)
Lemma yrun_threads tr s i : yrun (wr_init n) tr s -> (n <= i)%nat -> reading tr i = 0 /\ writing tr i = 0.
Proof.
  intros R Hi. remember (wr_init n) as s0 eqn:E0. assert (G : length (ythreads s) = n /\ reading tr i = 0 /\ writing tr i = 0); [|exact (proj2 G)].
  induction R as [s1|s1 tr s2 e s3 R IH St].
  - subst s1. cbn [wr_init ythreads]. rewrite repeat_length. split; [reflexivity|split; reflexivity].
  - destruct (IH E0) as (L & A & B). change (match e with Some x => [x] | None => [] end) with (xseen e).
    assert (Ne : forall j p, yat s2 j p -> Nat.eqb i j = false). { intros j p Hj. apply Nat.eqb_neq. intros <-. unfold yat in Hj. assert (i < length (ythreads s2))%nat by (apply nth_error_Some; congruence). lia. }
    destruct St; cbn [ythreads xseen]; unfold yput; rewrite upd_length; (split; [exact L|]); rewrite ?app_nil_r, ?reading_app, ?writing_app; cbn [rw_read1 rw_write1]; rewrite ?(Ne _ _ H), ?A, ?B; split; reflexivity.
Qed.
End WinRW.
