(** C100: the reader-writer lock on Windows. *)
From Verif Require Import Base S_Sync M_WinRW P_Sem P_RW P_WinRW.
Open Scope N_scope.

(** In every execution of any number of threads, failures and timeouts included, in which only
    holders unlock: while a thread holds the lock for writing, it holds it once, nobody else holds it
    for writing, and nobody for reading. *)
Theorem C100_excludes : forall errors n tr s i, yrun errors (wr_init n) tr s -> disciplined tr ->
  0 < writing tr i -> writing tr i = 1 /\ (forall j, 0 < writing tr j -> j = i) /\ (forall j, reading tr j = 0).
Proof.
  intros errors n tr s i R Ds Hi. destruct (yrun_inv errors n tr s R Ds) as (_ & A & _ & C & C2 & _ & F & _).
  assert (T : forall k, 0 < writing tr k -> (k < n)%nat). { intros k Hk. destruct (Nat.lt_ge_cases k n) as [|G]; [assumption|]. destruct (yrun_threads errors n tr s k R G) as [_ Z]. lia. }
  pose proof (sumto_in n (writing tr) i (T i Hi)) as Si. split; [lia|]. split.
  - intros j Hj. destruct (Nat.eq_dec j i) as [E|Ne]; [exact E|]. pose proof (sumto_two n (writing tr) i j (T i Hi) (T j Hj) ltac:(congruence)). lia.
  - intro j. destruct (Nat.lt_ge_cases j n) as [Lj|G]; [|exact (proj1 (yrun_threads errors n tr s j R G))]. specialize (F ltac:(lia)). pose proof (sumto_in n (reading tr) j Lj). lia.
Qed.

(** Unless a call fails for other reasons than time, the lock is not lost: if nobody holds it and all
    threads are outside, everything is as at the beginning. *)
Theorem C100_available : forall n tr s, yrun false (wr_init n) tr s -> disciplined tr ->
  (forall i, reading tr i = 0 /\ writing tr i = 0) -> (forall i p, nth_error (ythreads s) i = Some p -> p = YIdle) -> s = wr_init n.
Proof.
  intros n tr s R Ds Z Q. destruct (yrun_inv false n tr s R Ds) as (L & _ & _ & _ & _ & _ & _ & E). destruct (E eq_refl) as (E1 & E2 & E3 & E4 & E5).
  assert (T : forall f, f YIdle = O -> tally f (ythreads s) = O) by (intros f Hf; apply tally_zero; intros i p Hp; rewrite (Q i p Hp); exact Hf).
  rewrite (T yhasww eq_refl) in E1. rewrite (T yhasrm eq_refl) in E2. rewrite (T ypend eq_refl), (T ytook eq_refl) in E3. rewrite (T yupre eq_refl) in E4. rewrite (T ypend eq_refl), (T ylast eq_refl) in E5.
  rewrite (sumto_zero n (writing tr)) in E1 by (intro; apply Z). rewrite (sumto_zero n (reading tr)) in E4 by (intro; apply Z).
  destruct (E5 ltac:(lia) eq_refl) as [S|S]; [|lia]. assert (Th : ythreads s = repeat YIdle n).
  { rewrite <- L. apply Forall_eq_repeat. apply Forall_forall. intros p I. apply In_nth_error in I. destruct I as [k Hk]. symmetry. exact (Q k p Hk). }
  destruct s as [a b c d t]. cbn [yww yrm yrs ysig ythreads] in *. unfold wr_init. subst t d.
  destruct a; [|cbn in E1; lia]. destruct b; [|cbn in E2; lia]. replace c with LONG_MAX by lia. reflexivity.
Qed.

(** While no writer has or awaits the lock, a reader gets in whatever other readers hold, up to
    LONG_MAX read locks in all. *)
Theorem C100_shared : forall n tr s i, yrun false (wr_init n) tr s -> disciplined tr -> outstanding tr < LONG_MAX ->
  (forall i, writing tr i = 0) -> (forall i p, nth_error (ythreads s) i = Some p -> p = YIdle) -> (i < n)%nat ->
  exists s', yrun false (wr_init n) (tr ++ [RGot i]) s' /\ forall j, reading (tr ++ [RGot i]) j = reading tr j + (if Nat.eqb j i then 1 else 0).
Proof.
  intros n tr s i R Ds Out Z Q Hi. destruct (yrun_inv false n tr s R Ds) as (L & _ & _ & _ & _ & _ & _ & E). destruct (E eq_refl) as (E1 & E2 & E3 & _ & _).
  assert (T : forall f, f YIdle = O -> tally f (ythreads s) = O) by (intros f Hf; apply tally_zero; intros k p Hp; rewrite (Q k p Hp); exact Hf).
  rewrite (T yhasww eq_refl) in E1. rewrite (T yhasrm eq_refl) in E2. rewrite (T ypend eq_refl), (T ytook eq_refl) in E3. rewrite (sumto_zero n (writing tr)) in E1 by exact Z.
  assert (Hw : yww s = true) by (destruct (yww s); [reflexivity|cbn in E1; lia]). assert (Hr : yrm s = true) by (destruct (yrm s); [reflexivity|cbn in E2; lia]). assert (Hs : 0 < yrs s) by lia.
  assert (Hp : nth_error (ythreads s) i = Some YIdle). { destruct (nth_error (ythreads s) i) as [p|] eqn:Ep; [rewrite (Q i p Ep); reflexivity|]. apply nth_error_None in Ep. lia. }
  assert (U : forall l (p q : wrpc), nth_error l i = Some p -> nth_error (upd l i q) i = Some q) by (intros l p q El; rewrite nth_upd; destruct (Nat.eq_dec i i); [rewrite El; reflexivity|congruence]).
  eexists. split.
  - eapply (yrun_step false _ _ _ (Some (RGot i))).
    + rewrite <- (app_nil_r tr). eapply (yrun_step false _ _ _ None).
      * rewrite <- (app_nil_r tr). eapply (yrun_step false _ _ _ None).
        -- rewrite <- (app_nil_r tr). eapply (yrun_step false _ _ _ None).
           ++ rewrite <- (app_nil_r tr). eapply (yrun_step false _ _ _ None).
              ** rewrite <- (app_nil_r tr). eapply (yrun_step false _ _ _ None).
                 { rewrite <- (app_nil_r tr). eapply (yrun_step false _ _ _ None); [exact R|]. apply (y_rcall false s i Hp). }
                 { apply (y_1 false _ i); [exact (U _ _ _ Hp)|exact Hw]. }
              ** apply (y_2 false _ i); [eapply U, U, Hp|exact Hr].
           ++ apply (y_3 false _ i); [eapply U, U, U, Hp|exact Hs].
        -- apply (y_4 false _ i). eapply U, U, U, U, Hp.
      * apply (y_5 false _ i true); [eapply U, U, U, U, U, Hp|constructor].
    + apply (y_6 false _ i true); [eapply U, U, U, U, U, U, Hp|constructor].
  - intro j. rewrite reading_app. cbn [rw_read1]. destruct (Nat.eqb j i); lia.
Qed.

Tactic Notation "go" uconstr(c) := eapply yrun_front; [eapply c; try reflexivity; try constructor|cbn].

(** Two readers at once, a writer that has to wait for both. *)
Example C100_ex : exists tr s, yrun false (wr_init 3) tr s /\ tr = [RGot 0; RGot 1; WNot 2; RUnlock 0; RPut 0; RUnlock 1; RPut 1; WGot 2] /\
  reading (firstn 2 tr) 0 = 1 /\ reading (firstn 2 tr) 1 = 1 /\ writing tr 2 = 1 /\ outstanding (firstn 3 tr) = 2.
Proof.
  eexists. eexists. split; [|split; [|split; [|split; [|split]]]].
  - go (y_rcall false _ 0). go (y_1 false _ 0). go (y_2 false _ 0). go (y_3 false _ 0). go (y_4 false _ 0). go (y_5 false _ 0 true). go (y_6 false _ 0 true).
    go (y_rcall false _ 1). go (y_1 false _ 1). go (y_2 false _ 1). go (y_3 false _ 1). go (y_4 false _ 1). go (y_5 false _ 1 true). go (y_6 false _ 1 true).
    go (y_wcall false _ 2). go (y_w1 false _ 2). go (y_w2no false _ 2). go (y_w2x false _ 2 true).
    go (y_wcall false _ 2). go (y_w1 false _ 2).
    go (y_ucall false _ 0). go (y_u1 false _ 0). go (y_u2 false _ 0). go (y_u3 false _ 0). go (y_u5 false _ 0 true).
    go (y_ucall false _ 1). go (y_u1 false _ 1). go (y_u2 false _ 1). go (y_u3fire false _ 1). go (y_u5 false _ 1 true).
    go (y_w2 false _ 2). apply yrun_nil.
  - reflexivity.
  - reflexivity.
  - reflexivity.
  - reflexivity.
  - reflexivity.
Qed.

(** Nothing checks who unlocks: a thread that holds nothing calls WriteUnlock, and two threads hold
    the lock for writing. *)
Theorem C100_unchecked : exists tr s, yrun false (wr_init 3) tr s /\ tr = [WGot 0; WUnlock 1; WGot 2] /\ writing tr 0 = 1 /\ writing tr 2 = 1 /\ ~ disciplined tr.
Proof.
  eexists. eexists. split; [|split; [|split; [|split]]].
  - go (y_wcall false _ 0). go (y_w1 false _ 0). go (y_w2 false _ 0). go (y_vcall false _ 1). go (y_v1 false _ 1 true). go (y_wcall false _ 2). go (y_w1 false _ 2). go (y_w2 false _ 2). apply yrun_nil.
  - reflexivity.
  - reflexivity.
  - reflexivity.
  - intro Ds. specialize (Ds [WGot 0] (WUnlock 1) [WGot 2] eq_refl). vm_compute in Ds. discriminate.
Qed.

Print Assumptions C100_excludes. Print Assumptions C100_available. Print Assumptions C100_shared. Print Assumptions C100_unchecked.
