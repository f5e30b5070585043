(** Proofs about M_MutexEnd. *)
From Verif Require Import Base S_Sync S_MutexEnd M_MutexEnd.
Open Scope N_scope.

Lemma tdepth_snoc tr e i : tdepth (tr ++ [e]) i = tdepth1 i (tdepth tr i) e.
Proof. unfold tdepth. rewrite fold_left_app. reflexivity. Qed.

Definition tgood (s : ends) (tr : list t_event) : Prop :=
  (forall i j a, nth_error (tlive s) i = Some (Some a) -> nth_error (tlive s) j = Some (Some a) -> i = j) /\
  (forall i, tdepth tr i <> 0 -> exists a, nth_error (tlive s) i = Some (Some a) /\ towner s = Some a) /\
  (forall i, tdepth tr i <= tcount s) /\ (tavail s = true -> towner s = None).

Lemma tgood_init : tgood ends_init [].
Proof. split; [intros i j a H; destruct i; discriminate|]. split; [intros i H; cbn in H; congruence|]. split; [intro i; cbn; lia|reflexivity]. Qed.

Lemma tgood_step s tr e s' : tgood s tr -> tstep s e s' -> tgood s' (tr ++ [e]).
Proof.
  intros (D & H & C & A) S. destruct S as [s i a Hn Ho|s i a Hn Ho Ha|s i a Hn Ho|s i a Hn Ho|s i a Hn Ho Hc|s i a all Hn Ho Hc|s i a Hn|s a Hn]; unfold tgood; cbn [tlive towner tcount tavail].
  - split; [exact D|]. split; [|split; [|exact A]]; intro k; rewrite tdepth_snoc; cbn [tdepth1 mx_depth1]; destruct (Nat.eqb_spec k i) as [->|]; cbn [andb Nat.eqb].
    + intros _. eauto.
    + apply H.
    + specialize (C i). lia.
    + specialize (C k). lia.
  - specialize (A Ha). assert (Z : forall k, tdepth tr k = 0) by (intro k; destruct (N.eq_dec (tdepth tr k) 0) as [E|E]; [exact E|destruct (H k E) as (b & _ & X); congruence]).
    split; [exact D|]. split; [|split; [|discriminate]]; intro k; rewrite tdepth_snoc; cbn [tdepth1 mx_depth1]; rewrite Z; destruct (Nat.eqb_spec k i) as [->|]; cbn [andb Nat.eqb].
    + intros _. eauto.
    + congruence.
    + lia.
    + lia.
  - split; [exact D|]. split; [|split; [|exact A]]; intro k; rewrite tdepth_snoc; cbn [tdepth1 mx_depth1]; [apply H|apply C].
  - split; [exact D|]. split; [|split; [|exact A]]; intro k; rewrite tdepth_snoc; cbn [tdepth1 mx_depth1]; [apply H|apply C].
  - assert (Z : forall k, k <> i -> tdepth tr k = 0) by (intros k Hk; destruct (N.eq_dec (tdepth tr k) 0) as [E|E]; [exact E|destruct (H k E) as (b & X & Y); exfalso; apply Hk, (D k i a); congruence]).
    split; [exact D|]. split; [|split; [|exact A]]; intro k; rewrite tdepth_snoc; cbn [tdepth1 mx_depth1]; destruct (Nat.eqb_spec k i) as [->|Hk]; cbn [andb Nat.eqb].
    + intros _. eauto.
    + apply H.
    + specialize (C i). lia.
    + rewrite (Z k Hk). lia.
  - assert (Z : forall k, k <> i -> tdepth tr k = 0) by (intros k Hk; destruct (N.eq_dec (tdepth tr k) 0) as [E|E]; [exact E|destruct (H k E) as (b & X & Y); exfalso; apply Hk, (D k i a); congruence]).
    assert (Q : forall k, tdepth (tr ++ [TCall (MUnlocked i 0 all)]) k = 0).
    { intro k. rewrite tdepth_snoc. cbn [tdepth1 mx_depth1]. destruct (Nat.eqb_spec k i) as [->|Hk]; cbn [andb Nat.eqb]; [|exact (Z k Hk)]. destruct all; [reflexivity|]. destruct Hc as [X|X]; [discriminate|]. specialize (C i). lia. }
    split; [exact D|]. split; [intros k Hk; rewrite Q in Hk; congruence|]. split; [intro k; rewrite Q; lia|reflexivity].
  - assert (L : forall k b, nth_error (upd (tlive s) i None) k = Some (Some b) -> k <> i /\ nth_error (tlive s) k = Some (Some b)).
    { intros k b E. destruct (Nat.eq_dec k i) as [->|Ne]; [rewrite upd_nth_same in E by (apply nth_error_Some; congruence); discriminate|]. rewrite upd_nth_other in E by congruence. auto. }
    split; [intros k l b E1 E2; apply (D k l b); [apply (L k b E1)|apply (L l b E2)]|]. split; [|split; [|exact A]]; intro k; rewrite tdepth_snoc; cbn [tdepth1]; destruct (Nat.eqb_spec k i) as [->|Hk].
    + congruence.
    + intro X. destruct (H k X) as (b & E & O). exists b. rewrite upd_nth_other by congruence. auto.
    + lia.
    + apply C.
  - assert (L : forall k b, nth_error (tlive s ++ [Some a]) k = Some (Some b) -> nth_error (tlive s) k = Some (Some b) \/ k = length (tlive s) /\ b = a).
    { intros k b E. destruct (Nat.lt_ge_cases k (length (tlive s))) as [X|X]; [rewrite nth_error_app1 in E by exact X; auto|]. rewrite nth_error_app2 in E by exact X. destruct (k - length (tlive s))%nat as [|m] eqn:Em; [injection E as <-; right; split; [lia|reflexivity]|destruct m; discriminate]. }
    split.
    + intros k l b E1 E2. destruct (L k b E1) as [X|[X ->]], (L l _ E2) as [Y|[Y Y2]]; try (subst b); [exact (D k l _ X Y)|destruct (Hn k X)|destruct (Hn l Y)|congruence].
    + split; [|split; [|exact A]]; intro k; rewrite tdepth_snoc; cbn [tdepth1]; [|apply C]. intro X. destruct (H k X) as (b & E & O). exists b. rewrite nth_error_app1 by (apply nth_error_Some; congruence). auto.
Qed.

Lemma tgood_run tr s : trun ends_init tr s -> tgood s tr.
Proof. intro R. remember ends_init as s0. induction R as [s|s tr s1 e s2 R IH S]; [subst; apply tgood_init|]. apply (tgood_step s1); [exact (IH Heqs0)|exact S]. Qed.

(** The owner is no living thread. *)
Definition lost (a : nat) (s : ends) : Prop := towner s = Some a /\ tavail s = false /\ forall i, nth_error (tlive s) i <> Some (Some a).

Lemma lost_run a s tr s' : trun s tr s' -> lost a s -> ~ In (TStart a) tr -> lost a s' /\ forall i, ~ In (TCall (MLocked i 0)) tr.
Proof.
  induction 1 as [s|s tr s1 e s2 R IH S]; intros L N; [split; [exact L|intros i []]|].
  destruct (IH L ltac:(intro X; apply N, in_or_app; auto)) as [(O & V & T) Q]. clear IH.
  assert (Ne : e <> TStart a) by (intros ->; apply N, in_or_app; right; left; reflexivity).
  assert (G : lost a s2 /\ forall i, e <> TCall (MLocked i 0)).
  { destruct S as [s1 i b Hn Ho|s1 i b Hn Ho Ha|s1 i b Hn Ho|s1 i b Hn Ho|s1 i b Hn Ho Hc|s1 i b all Hn Ho Hc|s1 i b Hn|s1 b Hn].
    - exfalso. apply (T i). congruence.
    - congruence.
    - split; [split; auto|discriminate].
    - split; [split; auto|discriminate].
    - exfalso. apply (T i). congruence.
    - exfalso. apply (T i). congruence.
    - split; [|discriminate]. split; [exact O|]. split; [exact V|]. cbn [tlive]. intros k E. destruct (Nat.eq_dec k i) as [->|Nk]; [rewrite upd_nth_same in E by (apply nth_error_Some; congruence); discriminate|]. rewrite upd_nth_other in E by congruence. exact (T k E).
    - split; [|discriminate]. split; [exact O|]. split; [exact V|]. cbn [tlive]. intros k E. destruct (Nat.lt_ge_cases k (length (tlive s1))) as [X|X]; [rewrite nth_error_app1 in E by exact X; exact (T k E)|]. rewrite nth_error_app2 in E by exact X. destruct (k - length (tlive s1))%nat as [|m]; [injection E as ->; congruence|destruct m; discriminate]. }
  destruct G as [G1 G2]. split; [exact G1|]. intros i I. apply in_app_or in I. destruct I as [I|[I|[]]]; [exact (Q i I)|exact (G2 i I)].
Qed.
