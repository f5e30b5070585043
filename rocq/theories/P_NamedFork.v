(** Proofs about M_NamedFork. *)
From Verif Require Import Base S_NamedFork M_NamedFork.
Open Scope N_scope.

Definition is_open (l : list bool) (i : nat) : bool := match nth_error l i with Some b => b | None => false end.
Fixpoint tally (l : list bool) : N := match l with [] => 0 | b :: r => (if b then 1 else 0) + tally r end.

Lemma is_open_upd l i v j : (i < length l)%nat -> is_open (upd l i v) j = if Nat.eqb j i then v else is_open l j.
Proof. intro L. unfold is_open. destruct (Nat.eqb_spec j i) as [->|Ne]; [rewrite upd_nth_same by exact L; reflexivity|rewrite upd_nth_other by congruence; reflexivity]. Qed.
Lemma is_open_app l b j : is_open (l ++ [b]) j = if Nat.eqb j (length l) then b else is_open l j.
Proof.
  unfold is_open. destruct (Nat.eqb_spec j (length l)) as [->|Ne]; [rewrite nth_error_app2, Nat.sub_diag by lia; reflexivity|].
  destruct (Nat.lt_ge_cases j (length l)) as [L|L]; [rewrite nth_error_app1 by exact L; reflexivity|]. rewrite !(proj2 (nth_error_None _ j)); [reflexivity|lia|rewrite app_length; cbn [length]; lia].
Qed.
Lemma tally_app l m : tally (l ++ m) = tally l + tally m.
Proof. induction l as [|b l IH]; cbn [app tally]; [reflexivity|rewrite IH; lia]. Qed.
Lemma tally_upd l i v b : nth_error l i = Some b -> tally (upd l i v) + (if b then 1 else 0) = tally l + (if v then 1 else 0).
Proof.
  intro E. destruct (nth_error_split l i E) as (l1 & l2 & -> & <-). rewrite upd_split by (rewrite app_length; cbn [length]; lia).
  rewrite firstn_app, Nat.sub_diag, firstn_all. cbn [firstn]. rewrite app_nil_r. rewrite skipn_app, skipn_all2 by lia. replace (S (length l1) - length l1)%nat with 1%nat by lia. cbn [skipn app].
  rewrite !tally_app. cbn [tally]. destruct b, v; lia.
Qed.
Lemma tally_pos l i : is_open l i = true -> 0 < tally l.
Proof. unfold is_open. intro H. destruct (nth_error l i) as [b|] eqn:E; [|discriminate]. subst b. destruct (nth_error_split l i E) as (l1 & l2 & -> & _). rewrite tally_app. cbn [tally]. lia. Qed.

Lemma srun_open n r s : srun n r s -> forall i, is_open (sopen s) i = nf_open r i.
Proof.
  assert (L : forall x i (b : bool), nth_error (sopen x) i = Some b -> (i < length (sopen x))%nat) by (intros x i b E; apply nth_error_Some; congruence).
  induction 1 as [|r s i R IH E Z|r s i R IH E Z|r s i R IH E|r s i b R IH E|r s i b R IH E]; intro k; cbn [sopen nf_open].
  - unfold is_open, shm_init. cbn [sopen]. destruct (nth_error (repeat false n) k) as [b|] eqn:X; [|reflexivity]. apply nth_error_In, repeat_spec in X. exact X.
  - rewrite is_open_upd by eauto. rewrite IH. reflexivity.
  - rewrite is_open_upd by eauto. rewrite IH. reflexivity.
  - rewrite is_open_upd by eauto. rewrite IH. reflexivity.
  - rewrite is_open_app. rewrite <- !IH. destruct (Nat.eqb k (length (sopen s))); [|reflexivity]. unfold is_open. rewrite E. reflexivity.
  - rewrite is_open_upd by eauto. rewrite IH. reflexivity.
Qed.

Lemma srun_refs n r s : srun n r s -> nf_free r -> tally (sopen s) <= srefs s.
Proof.
  induction 1 as [|r s i R IH E Z|r s i R IH E Z|r s i R IH E|r s i b R IH E|r s i b R IH E]; cbn [nf_free sopen srefs]; intro F.
  - unfold shm_init. cbn [sopen srefs]. clear. induction n as [|n IH]; cbn [repeat tally]; lia.
  - specialize (IH F). pose proof (tally_upd _ i true _ E) as T. cbv iota in T. lia.
  - specialize (IH F). pose proof (tally_upd _ i true _ E) as T. cbv iota in T. lia.
  - specialize (IH F). pose proof (tally_upd _ i false _ E) as T. cbv iota in T. destruct (N.eqb_spec (srefs s) 0); lia.
  - destruct F as [F1 F2]. specialize (IH F2). rewrite <- (srun_open n r s R) in F1. unfold is_open in F1. rewrite E in F1. subst b. rewrite tally_app. cbn [tally]. lia.
  - specialize (IH F). pose proof (tally_upd _ i false _ E) as T. destruct b; cbv iota in T; lia.
Qed.

(** The holder makes processes, which close the object, until the count is 0. *)
Lemma drain n i k : forall m r s, srun n r s -> N.to_nat (srefs s) = m -> nth_error (sopen s) i = Some true -> nth_error (sopen s) k = Some false ->
  exists r' s', srun n (r' ++ r) s' /\ srefs s' = 0 /\ nth_error (sopen s') i = Some true /\ nth_error (sopen s') k = Some false /\ (forall e, In e r' -> exists j, e = NfFork i j \/ e = NfClosed j /\ j <> i /\ j <> k).
Proof.
  induction m as [|m IH]; intros r s R M Ei Ek.
  - exists [], s. split; [exact R|]. split; [lia|]. split; [exact Ei|]. split; [exact Ek|]. intros e [].
  - pose proof (s_fork n r s i true R Ei) as R1. set (j := length (sopen s)) in *.
    assert (Li : (i < length (sopen s))%nat) by (apply nth_error_Some; congruence). assert (Lk : (k < length (sopen s))%nat) by (apply nth_error_Some; congruence).
    assert (Ej : nth_error (sopen (Shm (srefs s) (sopen s ++ [true]))) j = Some true) by (cbn [sopen]; unfold j; rewrite nth_error_app2, Nat.sub_diag by lia; reflexivity).
    pose proof (s_closed n _ _ j R1 Ej) as R2. cbn [sopen srefs] in R2.
    assert (K : forall x, (x < length (sopen s))%nat -> nth_error (upd (sopen s ++ [true]) j false) x = nth_error (sopen s) x) by (intros x Lx; rewrite upd_nth_other by (unfold j; lia); apply nth_error_app1; exact Lx).
    destruct (IH _ _ R2) as (r' & s' & R' & Z & Ei' & Ek' & Al).
    + cbn [srefs]. destruct (N.eqb_spec (srefs s) 0) as [X|X]; lia.
    + cbn [sopen]. rewrite K by exact Li. exact Ei.
    + cbn [sopen]. rewrite K by exact Lk. exact Ek.
    + exists (r' ++ [NfClosed j; NfFork i j]), s'. rewrite <- app_assoc. split; [exact R'|]. split; [exact Z|]. split; [exact Ei'|]. split; [exact Ek'|].
      intros e I. apply in_app_or in I. destruct I as [I|[<-|[<-|[]]]]; [exact (Al e I)| |]; exists j; [right|left; reflexivity]. split; [reflexivity|]. unfold j. split; lia.
Qed.
