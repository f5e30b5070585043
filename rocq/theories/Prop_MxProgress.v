(** C132: a call on a mutex waits only for another thread that holds it. *)
From Verif Require Import Base S_Sync M_Sem M_Mutex P_Sem P_Mutex P_Progress P_MxProgress Prop_Progress.
Open Scope N_scope.

(** Left alone, the threads inside calls go on for at most five steps each. *)
Theorem C132_ends : forall k s s', steps mgoes_on k s s' -> (k <= 5 * length (mthreads s))%nat.
Proof.
  intros k s s' R. assert (H : (k + tally mwork (mthreads s') <= tally mwork (mthreads s))%nat).
  { induction R as [s|k s s1 e s2 R IH St]; [lia|]. pose proof (mgoes_less _ _ _ St). lia. }
  assert (B : forall l, (tally mwork l <= 5 * length l)%nat) by (induction l as [|p l IH]; [cbn; lia|]; cbn [tally fold_right length]; unfold tally in IH; destruct p; cbn [mwork]; lia).
  specialize (B (mthreads s)). lia.
Qed.

(** When nobody can go on, for any number of objects of one mutex and any number of threads: every
    thread is outside or waits in Lock, and then somebody holds the mutex: another thread, or the
    same one through another object.  Unlock never waits for ever. *)
Theorem C132_waits : forall nobj n tr s, mrun false (mutex_init nobj n) tr s ->
  (forall tr1 tr2 i o, tr = tr1 ++ tr2 -> mx_depth tr1 i o < 2 ^ 32) -> (forall e s', ~ mgoes_on s e s') ->
  forall i p, nth_error (mthreads s) i = Some p -> p <> MIdle ->
  exists o j o', p = LWait o /\ 0 < mx_depth tr j o' /\ (j <> i \/ o' <> o).
Proof.
  intros nobj n tr s R Sh K i p Ei NI. pose proof (mstuck_pc s (cinv_run _ _ _ _ _ R) K) as P.
  destruct (P i p Ei) as [->|[(o & ->) V]]; [congruence|].
  destruct (mrun_hold false nobj n tr s R Sh) as (h & (Rel & _ & T & Ap) & D & _). specialize (T eq_refl). unfold tokens in T. rewrite V in T. cbn [bnat] in T.
  rewrite (tally_zero busy) in T by (intros j q Ej; destruct (P j q Ej) as [->|[(o' & ->) _]]; reflexivity).
  destruct h as [[[j o'] d]|]; [|cbn in T; lia]. exists o, j, o'. split; [reflexivity|]. split.
  - rewrite D. cbn [hdepth]. rewrite !Nat.eqb_refl. cbn. destruct Rel as [_ [_ L]]. lia.
  - destruct (Nat.eq_dec o' o) as [->|]; [|auto]. left. intros ->. apply (Ap i o Ei). cbn [howner]. rewrite Nat.eqb_refl. reflexivity.
Qed.

Tactic Notation "mgo" uconstr(c) := eapply (mrun_front false _ None); [eapply c; try reflexivity|cbn].

Ltac no_go := match goal with Ha : @nth_error mpc _ ?k = Some _ |- _ => destruct k as [|[|k]]; cbn in Ha; try discriminate Ha; try (destruct k; discriminate Ha) end.

(** Thread 0 has the mutex, thread 1 waits. *)
Example C132_ex : exists s, mrun false (mutex_init 1 2) [MLocked 0 0] s /\ nth_error (mthreads s) 1 = Some (LWait 0) /\ forall e s', ~ mgoes_on s e s'.
Proof.
  exists (Mutex false [MObj None (Some 0%nat) 1] [MIdle; LWait 0]). split; [|split; [reflexivity|]].
  - mgo (m_call false _ 0 0). mgo (m_lock false _ 0 0). eapply (mrun_front false _ None); [eapply (m_other false _ 0 0); [reflexivity|reflexivity|discriminate]|cbn]. mgo (m_wait false _ 0 0). mgo (m_lock2 false _ 0 0).
    eapply (mrun_front false _ (Some (MLocked 0 0))); [eapply (m_own false _ 0 0); reflexivity|cbn]. mgo (m_call false _ 1 0). mgo (m_lock false _ 1 0).
    eapply (mrun_front false _ None); [eapply (m_other false _ 1 0); [reflexivity|reflexivity|discriminate]|cbn]. apply mrun_nil.
  - intros e s' [St G]. inversion St; subst; cbn [mthreads avail] in *; try discriminate; no_go; unfold mput in G; cbn [mthreads upd] in G.
    all: try (specialize (G 0%nat _ _ eq_refl eq_refl); destruct G as [G _]; discriminate (G eq_refl)).
    all: try (specialize (G 1%nat _ _ eq_refl eq_refl); destruct G as [_ G]; exact (G I)).
Qed.

(** A thread has locked a mutex and locks it again through another object of the same name: it
    waits for itself, for ever. *)
Theorem C132_self_refuted : exists s, mrun false (mutex_init 2 1) [MLocked 0 0] s /\ nth_error (mthreads s) 0 = Some (LWait 1) /\ forall e s', ~ mgoes_on s e s'.
Proof.
  exists (Mutex false [MObj None (Some 0%nat) 1; MObj None None 0] [LWait 1]). split; [|split; [reflexivity|]].
  - mgo (m_call false _ 0 0). mgo (m_lock false _ 0 0). eapply (mrun_front false _ None); [eapply (m_other false _ 0 0); [reflexivity|reflexivity|discriminate]|cbn]. mgo (m_wait false _ 0 0). mgo (m_lock2 false _ 0 0).
    eapply (mrun_front false _ (Some (MLocked 0 0))); [eapply (m_own false _ 0 0); reflexivity|cbn]. mgo (m_call false _ 0 1). mgo (m_lock false _ 0 1).
    eapply (mrun_front false _ None); [eapply (m_other false _ 0 1); [reflexivity|reflexivity|discriminate]|cbn]. apply mrun_nil.
  - intros e s' [St G]. inversion St; subst; cbn [mthreads avail] in *; try discriminate; no_go; unfold mput in G; cbn [mthreads upd] in G.
    all: try (specialize (G 0%nat _ _ eq_refl eq_refl); destruct G as [_ G]; exact (G I)).
Qed.

Print Assumptions C132_ends. Print Assumptions C132_waits. Print Assumptions C132_self_refuted.
