(** C155: named objects (POSIX) in processes that fork. *)
From Verif Require Import Base S_NamedFork M_NamedFork P_NamedFork.
Open Scope N_scope.

(** If processes fork only while they do not have the object open, it is made anew only when nobody
    has it open: its contents are never cleared under a user. *)
Theorem C155_kept : forall n r s i, srun n (NfMade i :: r) s -> nf_free r -> forall k, nf_open r k = false.
Proof.
  intros n r s i R F k. inversion R as [|r0 s0 i0 R0 E0 Z0| | | |]; subst. pose proof (srun_refs n r s0 R0 F) as T. destruct (nf_open r k) eqn:X; [|reflexivity].
  rewrite <- (srun_open n r s0 R0) in X. apply tally_pos in X. lia.
Qed.

(** REFUTED: whoever has the object open, and however many others have: after enough new processes of
    one user have closed it, the next Create clears it, while that user has it open. *)
Theorem C155_refuted : forall n r s i k, srun n r s -> nth_error (sopen s) i = Some true -> nth_error (sopen s) k = Some false ->
  exists r' s', srun n (NfMade k :: r' ++ r) s' /\ nf_open (r' ++ r) i = true /\ (forall e, In e r' -> exists j, e = NfFork i j \/ e = NfClosed j /\ j <> i /\ j <> k).
Proof.
  intros n r s i k R Ei Ek. destruct (drain n i k _ r s R eq_refl Ei Ek) as (r' & s' & R' & Z & Ei' & Ek' & Al). exists r'. eexists. split; [exact (s_made n _ _ k R' Ek' Z)|]. split; [|exact Al].
  rewrite <- (srun_open n _ _ R'). unfold is_open. rewrite Ei'. reflexivity.
Qed.

(** One user, one fork: process 0 opens the object and makes process 2, which closes it; process 1 then
    makes the object anew, and process 0 still has it open. *)
Example C155_ex : let r := [NfClosed 2; NfFork 0 2; NfMade 0] in
  srun 2 (NfMade 1 :: r) (Shm 1 [true; true; false]) /\ nf_open r 0 = true /\ ~ nf_free r.
Proof.
  cbv zeta. split; [|split; [reflexivity|cbn; intros [X _]; discriminate]].
  apply (s_made 2 _ (Shm 0 [true; false; false]) 1); [|reflexivity|reflexivity].
  apply (s_closed 2 _ (Shm 1 [true; false; true]) 2); [|reflexivity].
  apply (s_fork 2 _ (Shm 1 [true; false]) 0 true); [|reflexivity].
  apply (s_made 2 _ (shm_init 2) 0); [apply s_nil|reflexivity|reflexivity].
Qed.
(** Without forks of users the second one finds it. *)
Example C155_ex2 : srun 2 [NfFound 1; NfMade 0] (Shm 2 [true; true]).
Proof. apply (s_found 2 _ (Shm 1 [true; false]) 1); [|reflexivity|discriminate]. apply (s_made 2 _ (shm_init 2) 0); [apply s_nil|reflexivity|reflexivity]. Qed.

Print Assumptions C155_kept.
Print Assumptions C155_refuted.
