(** C40, C41: the mutex. *)
From Verif Require Import Base S_Sync M_Sem M_Mutex P_Sem P_Mutex.
Open Scope N_scope.

(** ** C40 *)

(** In every execution with any number of threads and of objects for the same mutex, failures and
    timeouts included, at most one thread holds it, through one object. *)
Theorem C40_excludes : forall errors nobj n tr s i o j p, mrun errors (mutex_init nobj n) tr s ->
  (forall tr1 tr2 i o, tr = tr1 ++ tr2 -> mx_depth tr1 i o < 2 ^ 32) ->
  0 < mx_depth tr i o -> 0 < mx_depth tr j p -> i = j /\ o = p.
Proof.
  intros errors nobj n tr s i o j p R Sh Hi Hj. destruct (mrun_hold _ _ _ _ _ R Sh) as (h & _ & D & _). rewrite D in Hi, Hj.
  destruct h as [[[k q] c]|]; [|cbn in Hi; lia]. cbn [hdepth] in Hi, Hj.
  destruct (Nat.eqb_spec i k) as [->|]; [|cbn in Hi; lia]. destruct (Nat.eqb_spec o q) as [->|]; [|cbn in Hi; lia].
  destruct (Nat.eqb_spec j k) as [->|]; [|cbn in Hj; lia]. destruct (Nat.eqb_spec p q) as [->|]; [|cbn in Hj; lia]. split; reflexivity.
Qed.

(** Unless a call fails, the mutex is not lost: if nobody holds it and all threads are outside or
    waiting, the semaphore is available. *)
Theorem C40_available : forall nobj n tr s, mrun false (mutex_init nobj n) tr s ->
  (forall tr1 tr2 i o, tr = tr1 ++ tr2 -> mx_depth tr1 i o < 2 ^ 32) ->
  (forall i o, mx_depth tr i o = 0) -> (forall i p, nth_error (mthreads s) i = Some p -> p = MIdle \/ exists o, p = LWait o) -> avail s = true.
Proof.
  intros nobj n tr s R Sh Z Q. destruct (mrun_hold _ _ _ _ _ R Sh) as (h & (Rl & _ & T & _) & D & _). specialize (T eq_refl). unfold tokens in T.
  rewrite (tally_zero busy) in T. 2: { intros i p E. destruct (Q i p E) as [->|[o ->]]; reflexivity. }
  destruct h as [[[k q] c]|].
  - exfalso. specialize (Z k q). rewrite D in Z. cbn [hdepth] in Z. rewrite !Nat.eqb_refl in Z. cbn [andb] in Z. destruct Rl as [_ [_ B]]. lia.
  - cbn [hnat] in T. destruct (avail s); [reflexivity|cbn in T; lia].
Qed.

Tactic Notation "go" uconstr(c) := eapply mrun_front; [eapply c; try reflexivity; try discriminate|cbn].

(** Two objects, two threads: the second thread gets the mutex after both levels of the first are
    unlocked. *)
Example C40_ex : exists tr s, mrun false (mutex_init 2 2) tr s /\
  tr = [MLocked 0 0; MLocked 0 0; MNotLocked 1 1; MNotUnlocked 1 1; MUnlocked 0 0 false; MUnlocked 0 0 false; MLocked 1 1] /\
  mx_depth tr 1 1 = 1 /\ mx_depth tr 0 0 = 0 /\ mx_depth (firstn 2 tr) 0 0 = 2 /\ recursing None tr = Some (Some (1%nat, 1%nat, 1)) /\
  recursing None (firstn 5 tr ++ [MLocked 1 1]) = None.
Proof.
  eexists. eexists. split; [|split; [|split; [|split; [|split; [|split]]]]].
  - go (m_call false _ 0 0). go (m_lock false _ 0 0). go (m_other false _ 0 0). go (m_wait false _ 0 0). go (m_lock2 false _ 0 0). go (m_own false _ 0 0).
    go (m_call false _ 0 0). go (m_lock false _ 0 0). go (m_again false _ 0 0).
    go (m_call false _ 1 1). go (m_lock false _ 1 1). go (m_other false _ 1 1). go (m_nowait false _ 1 1).
    go (m_ucall false _ 1 1 false). go (m_ulock false _ 1 1 false). go (m_unot false _ 1 1 false).
    go (m_ucall false _ 0 0 false). go (m_ulock false _ 0 0 false). go (m_dec false _ 0 0 false).
    go (m_call false _ 1 1). go (m_lock false _ 1 1). go (m_other false _ 1 1).
    go (m_ucall false _ 0 0 false). go (m_ulock false _ 0 0 false). go (m_last false _ 0 0 false). go (m_release false _ 0 0).
    go (m_wait false _ 1 1). go (m_lock2 false _ 1 1). go (m_own false _ 1 1). apply mrun_nil.
  - reflexivity.
  - vm_compute. reflexivity.
  - vm_compute. reflexivity.
  - vm_compute. reflexivity.
  - vm_compute. reflexivity.
  - vm_compute. reflexivity.
Qed.

(** ** C41 *)

(** Unless a call fails, all calls return what an atomic recursive mutex would return, where a wait
    may always be given up by a thread that does not hold the mutex. *)
Theorem C41_atomic : forall nobj n tr s, mrun false (mutex_init nobj n) tr s ->
  (forall tr1 tr2 i o, tr = tr1 ++ tr2 -> mx_depth tr1 i o < 2 ^ 32) ->
  exists h, recursing None tr = Some h /\ forall i o, mx_depth tr i o = match h with Some (j, p, c) => if Nat.eqb i j && Nat.eqb o p then c else 0 | None => 0 end.
Proof.
  intros nobj n tr s R Sh. destruct (mrun_hold _ _ _ _ _ R Sh) as (h & _ & D & X). exists h. split; [exact (X eq_refl)|]. exact D.
Qed.

(** Unlock returns true exactly to the holder, and the holder's Lock never fails. *)
Theorem C41_returns : forall nobj n tr s i o e, mrun false (mutex_init nobj n) (tr ++ [e]) s ->
  (forall tr1 tr2 i o, tr ++ [e] = tr1 ++ tr2 -> mx_depth tr1 i o < 2 ^ 32) ->
  (forall all, e = MUnlocked i o all -> 0 < mx_depth tr i o) /\ (e = MNotUnlocked i o -> mx_depth tr i o = 0) /\ (e = MNotLocked i o -> mx_depth tr i o = 0).
Proof.
  intros nobj n tr s i o e R Sh. destruct (C41_atomic _ _ _ _ R Sh) as (h & E & D).
  rewrite recursing_app in E. destruct (recursing None tr) as [h0|] eqn:E0; [|discriminate].
  assert (D0 : forall tr h0 h1 i o, recursing h0 tr = Some h1 -> (forall j p c, h0 = Some (j, p, c) -> 0 < c) -> fold_left (fun d e => mx_depth1 d i o e) tr (hdepth h0 i o) = hdepth h1 i o /\ (forall j p c, h1 = Some (j, p, c) -> 0 < c)).
  { clear. induction tr as [|e tr IH]; intros h0 h1 i o E P; [injection E as <-; split; [reflexivity|exact P]|]. cbn [fold_left recursing] in *.
    destruct e as [j p|j p|j p al|j p]; cbn [mx_depth1].
    - destruct h0 as [[[k q] c]|].
      + destruct (Nat.eqb_spec j k) as [->|]; [|discriminate]. destruct (Nat.eqb_spec p q) as [->|]; [|discriminate]. cbn [andb] in E.
        rewrite <- (proj1 (IH _ _ i o E ltac:(intros ? ? ? X; injection X as <- <- <-; specialize (P _ _ _ eq_refl); lia))).
        split; [|exact (proj2 (IH _ _ i o E ltac:(intros ? ? ? X; injection X as <- <- <-; specialize (P _ _ _ eq_refl); lia)))].
        f_equal. cbn [hdepth]. destruct (Nat.eqb i k && Nat.eqb o q); reflexivity.
      + rewrite <- (proj1 (IH _ _ i o E ltac:(intros ? ? ? X; injection X as <- <- <-; lia))).
        split; [|exact (proj2 (IH _ _ i o E ltac:(intros ? ? ? X; injection X as <- <- <-; lia)))].
        reflexivity.
    - destruct h0 as [[[k q] c]|]; [destruct (Nat.eqb j k && Nat.eqb p q); [discriminate|]|]; exact (IH _ _ i o E P).
    - destruct h0 as [[[k q] c]|]; [|discriminate]. destruct (Nat.eqb_spec j k) as [->|]; [|discriminate]. destruct (Nat.eqb_spec p q) as [->|]; [|discriminate]. cbn [andb] in E. specialize (P _ _ _ eq_refl).
      assert (P2 : forall j p c', (if al || (c =? 1) then None else Some (k, q, c - 1)) = Some (j, p, c') -> 0 < c').
      { intros j p c'. destruct (al || (c =? 1)) eqn:B; [discriminate|]. intro X. injection X as <- <- <-. apply orb_false_elim in B. destruct B as [_ B]. apply N.eqb_neq in B. lia. }
      rewrite <- (proj1 (IH _ _ i o E P2)). split; [|exact (proj2 (IH _ _ i o E P2))]. f_equal. cbn [hdepth].
      destruct al; cbn [orb]; [destruct (Nat.eqb i k && Nat.eqb o q); reflexivity|]. destruct (N.eqb_spec c 1) as [->|]; cbn [hdepth]; destruct (Nat.eqb i k && Nat.eqb o q); reflexivity.
    - destruct h0 as [[[k q] c]|]; [destruct (Nat.eqb j k && Nat.eqb p q); [discriminate|]|]; exact (IH _ _ i o E P). }
  destruct (D0 tr None h0 i o E0 ltac:(discriminate)) as [D1 P]. change (mx_depth tr i o = hdepth h0 i o) in D1. rewrite D1.
  split; [|split].
  - intros all ->. cbn [recursing] in E. destruct h0 as [[[k q] c]|]; [|discriminate]. cbn [hdepth]. destruct (Nat.eqb i k && Nat.eqb o q); [exact (P _ _ _ eq_refl)|discriminate].
  - intros ->. cbn [recursing] in E. destruct h0 as [[[k q] c]|]; [|reflexivity]. cbn [hdepth]. destruct (Nat.eqb i k && Nat.eqb o q); [discriminate|reflexivity].
  - intros ->. cbn [recursing] in E. destruct h0 as [[[k q] c]|]; [|reflexivity]. cbn [hdepth]. destruct (Nat.eqb i k && Nat.eqb o q); [discriminate|reflexivity].
Qed.

(** Three levels, unlocked at once. *)
Example C41_ex : exists tr s, mrun false (mutex_init 1 2) tr s /\ tr = [MLocked 0 0; MLocked 0 0; MUnlocked 0 0 false; MLocked 0 0; MUnlocked 0 0 true; MNotUnlocked 0 0] /\
  mx_depth (firstn 4 tr) 0 0 = 2 /\ mx_depth tr 0 0 = 0 /\ avail s = true.
Proof.
  eexists. eexists. split; [|split; [|split; [|split]]].
  - go (m_call false _ 0 0). go (m_lock false _ 0 0). go (m_other false _ 0 0). go (m_wait false _ 0 0). go (m_lock2 false _ 0 0). go (m_own false _ 0 0).
    go (m_call false _ 0 0). go (m_lock false _ 0 0). go (m_again false _ 0 0).
    go (m_ucall false _ 0 0 false). go (m_ulock false _ 0 0 false). go (m_dec false _ 0 0 false).
    go (m_call false _ 0 0). go (m_lock false _ 0 0). go (m_again false _ 0 0).
    go (m_ucall false _ 0 0 true). go (m_ulock false _ 0 0 true). go (m_last false _ 0 0 true). go (m_release false _ 0 0).
    go (m_ucall false _ 0 0 true). go (m_ulock false _ 0 0 true). go (m_unot false _ 0 0 true). apply mrun_nil.
  - reflexivity.
  - vm_compute. reflexivity.
  - vm_compute. reflexivity.
  - reflexivity.
Qed.

(** The bound is needed: after 2^32+1 calls of Lock and one of Unlock the mutex is free for others. *)
Theorem C41_wraps : exists tr s, mrun false (mutex_init 1 2) tr s /\ mx_depth tr 0 0 = 2 ^ 32 /\ mx_depth tr 1 0 = 1.
Proof.
  assert (L : forall k, exists s, mrun false (mutex_init 1 2) (repeat (MLocked 0 0) (S k)) s /\ s = Mutex false [MObj None (Some 0%nat) (N.of_nat (S k) mod W32)] [MIdle; MIdle]).
  { induction k as [|k (s & R & ->)].
    - assert (R1 : exists tr s, mrun false (mutex_init 1 2) tr s /\ tr = [MLocked 0 0] /\ s = Mutex false [MObj None (Some 0%nat) 1] [MIdle; MIdle]).
      { eexists. eexists. split; [|split].
        - go (m_call false _ 0 0). go (m_lock false _ 0 0). go (m_other false _ 0 0). go (m_wait false _ 0 0). go (m_lock2 false _ 0 0). go (m_own false _ 0 0). apply mrun_nil.
        - reflexivity.
        - reflexivity. }
      destruct R1 as (tr & s & R1 & -> & ->). eexists. split; [exact R1|]. reflexivity.
    - eexists. split.
      + replace (repeat (MLocked 0 0) (S (S k))) with (repeat (MLocked 0 0) (S k) ++ [MLocked 0 0]) by (rewrite <- repeat_cons; reflexivity).
        eapply (mrun_step false _ _ _ (Some (MLocked 0 0))).
        * rewrite <- (app_nil_r (repeat (MLocked 0 0) (S k))). eapply (mrun_step false _ _ _ None).
          -- rewrite <- (app_nil_r (repeat (MLocked 0 0) (S k))). eapply (mrun_step false _ _ _ None); [exact R|]. eapply (m_call false _ 0 0); reflexivity.
          -- eapply (m_lock false _ 0 0); reflexivity.
        * eapply (m_again false _ 0 0); reflexivity.
      + unfold oput, mput. cbn [objs mthreads avail upd mcount owner]. f_equal. f_equal. f_equal. rewrite N.add_mod_idemp_l by discriminate. f_equal. lia. }
  assert (Dk : forall k i, mx_depth (repeat (MLocked 0 0) k) i 0 = if Nat.eqb i 0 then N.of_nat k else 0).
  { intros k i. induction k as [|k IH]; [cbn; destruct i; reflexivity|]. change (repeat (MLocked 0 0) (S k)) with (MLocked 0 0 :: repeat (MLocked 0 0) k). rewrite repeat_cons, mx_depth_app, IH. cbn [mx_depth1]. destruct (Nat.eqb i 0); cbn [andb]; [rewrite Nat.eqb_refl; lia|reflexivity]. }
  remember (N.to_nat W32) as K eqn:EK. assert (NK : N.of_nat K = W32) by (rewrite EK; apply N2Nat.id). clear EK. destruct (L K) as (s & R & ->).
  assert (R1 : exists s, mrun false (mutex_init 1 2) (repeat (MLocked 0 0) (S K) ++ [MUnlocked 0 0 false]) s /\ s = Mutex false [MObj (Some 0%nat) None 0] [URelease 0; MIdle]).
  { eexists. split.
    - eapply (mrun_step false _ _ _ (Some (MUnlocked 0 0 false))).
      + rewrite <- (app_nil_r (repeat (MLocked 0 0) (S K))). eapply (mrun_step false _ _ _ None).
        * rewrite <- (app_nil_r (repeat (MLocked 0 0) (S K))). eapply (mrun_step false _ _ _ None); [exact R|]. eapply (m_ucall false _ 0 0 false); reflexivity.
        * eapply (m_ulock false _ 0 0 false); reflexivity.
      + eapply (m_last false _ 0 0 false); [reflexivity|reflexivity|reflexivity|]. cbn [mcount]. replace (N.of_nat (S K)) with (1 + 1 * W32) by lia. rewrite N.mod_add by discriminate. reflexivity.
    - reflexivity. }
  destruct R1 as (s1 & R1 & ->).
  assert (R2 : exists s, mrun false (mutex_init 1 2) ((repeat (MLocked 0 0) (S K) ++ [MUnlocked 0 0 false]) ++ [MLocked 1 0]) s).
  { eexists. eapply (mrun_step false _ _ _ (Some (MLocked 1 0))).
    - rewrite <- (app_nil_r (_ ++ _)). eapply (mrun_step false _ _ _ None).
      + rewrite <- (app_nil_r (_ ++ _)). eapply (mrun_step false _ _ _ None).
        * rewrite <- (app_nil_r (_ ++ _)). eapply (mrun_step false _ _ _ None).
          -- rewrite <- (app_nil_r (_ ++ _)). eapply (mrun_step false _ _ _ None).
             ++ rewrite <- (app_nil_r (_ ++ _)). eapply (mrun_step false _ _ _ None).
                ** rewrite <- (app_nil_r (_ ++ _)). eapply (mrun_step false _ _ _ None); [exact R1|]. eapply (m_release false _ 0 0); reflexivity.
                ** eapply (m_call false _ 1 0); reflexivity.
             ++ eapply (m_lock false _ 1 0); reflexivity.
          -- eapply (m_other false _ 1 0); [reflexivity|reflexivity|discriminate].
        * eapply (m_wait false _ 1 0); reflexivity.
      + eapply (m_lock2 false _ 1 0); reflexivity.
    - eapply (m_own false _ 1 0); reflexivity. }
  destruct R2 as [s2 R2]. eexists. exists s2. split; [exact R2|]. rewrite !mx_depth_app, !Dk. cbn [mx_depth1 Nat.eqb andb]. split; [|reflexivity]. rewrite Nat2N.inj_succ, NK. reflexivity.
Qed.

Print Assumptions C40_excludes. Print Assumptions C40_available. Print Assumptions C41_atomic. Print Assumptions C41_returns. Print Assumptions C41_wraps.
