(** Proofs about M_MutexFork. *)
From Verif Require Import Base S_Sync S_Fork M_MutexFork.
Open Scope N_scope.

Definition cnt (s : forks) (i : nat) : N := match nth_error (fprocs s) i with Some (Some c) => c | _ => 0 end.

Lemma fdepth_snoc tr e i : fdepth (tr ++ [e]) i = fdepth1 i (fdepth tr i) e.
Proof. unfold fdepth. rewrite fold_left_app. reflexivity. Qed.
Lemma forks_free_snoc tr e : forks_free (tr ++ [e]) -> forks_free tr.
Proof. intros F tr1 i j tr2 E. apply (F tr1 i j (tr2 ++ [e])). rewrite E, <- app_assoc. reflexivity. Qed.

Lemma nth_fput s i c j b : nth_error (fprocs (Forks b (fput s i c))) j = if Nat.eqb j i then (match nth_error (fprocs s) i with Some _ => Some c | None => None end) else nth_error (fprocs s) j.
Proof.
  unfold fput. cbn [fprocs]. destruct (Nat.eqb_spec j i) as [->|Ne].
  - destruct (nth_error (fprocs s) i) eqn:E.
    + apply upd_nth_same. apply nth_error_Some. congruence.
    + apply nth_error_None. rewrite upd_length. apply nth_error_None. exact E.
  - apply upd_nth_other. congruence.
Qed.
Lemma cnt_fput s i x c j b : nth_error (fprocs s) i = Some x -> cnt (Forks b (fput s i c)) j = if Nat.eqb j i then match c with Some d => d | None => 0 end else cnt s j.
Proof. intro E. unfold cnt. rewrite nth_fput, E. destruct (Nat.eqb j i); reflexivity. Qed.

(** The counts are those of the calls; at most one is not 0, and none if the semaphore is free. *)
Definition good (s : forks) (tr : list f_event) : Prop :=
  (forall i, cnt s i = fdepth tr i) /\ (forall i, favail s = true -> cnt s i = 0) /\ (forall i j, cnt s i <> 0 -> cnt s j <> 0 -> i = j).

Lemma good_init n : good (forks_init n) [].
Proof.
  assert (Z : forall i, cnt (forks_init n) i = 0). { intro i. unfold cnt, forks_init. cbn [fprocs]. destruct (nth_error (repeat (Some 0) n) i) as [x|] eqn:E; [|reflexivity]. apply nth_error_In, repeat_spec in E. subst x. reflexivity. }
  split; [exact Z|]. split; [intros i _; apply Z|]. intros i j H. rewrite Z in H. congruence.
Qed.

Lemma good_step s tr e s' : good s tr -> forks_free (tr ++ [e]) -> fstep s e s' -> good s' (tr ++ [e]).
Proof.
  intros (D & A & U) F S. destruct S as [s i c Hn Hc|s i Hn H0|s i Hn|s i Hn|s i c Hn Hc|s i c all Hn Hc Ha|s i c Hn|s i c Hn|s i c Hn];
    match goal with H : nth_error (fprocs s) i = Some (Some ?v) |- _ => assert (Ck : cnt s i = v) by (unfold cnt; rewrite H; reflexivity) end.
  - split; [|split].
    + intro k. rewrite (cnt_fput _ _ _ _ _ _ Hn), fdepth_snoc. cbn [fdepth1 mx_depth1]. rewrite <- D. destruct (Nat.eqb_spec k i) as [->|]; cbn [andb]; lia.
    + intros k Hk. cbn [favail] in Hk. specialize (A i Hk). lia.
    + intros k l. rewrite !(cnt_fput _ _ _ _ _ _ Hn). destruct (Nat.eqb_spec k i) as [->|], (Nat.eqb_spec l i) as [->|]; intros Hk Hl; try reflexivity; apply U; lia.
  - split; [|split].
    + intro k. rewrite (cnt_fput _ _ _ _ _ _ Hn), fdepth_snoc. cbn [fdepth1 mx_depth1]. rewrite <- D. destruct (Nat.eqb_spec k i) as [->|]; cbn [andb]; lia.
    + intros k Hk. discriminate.
    + intros k l. rewrite !(cnt_fput _ _ _ _ _ _ Hn). pose proof (A k H0). pose proof (A l H0). destruct (Nat.eqb_spec k i) as [->|], (Nat.eqb_spec l i) as [->|]; intros Hk Hl; try reflexivity; lia.
  - split; [|split]; [|exact A|exact U]. intro k. rewrite fdepth_snoc. cbn [fdepth1 mx_depth1]. apply D.
  - split; [|split]; [|exact A|exact U]. intro k. rewrite fdepth_snoc. cbn [fdepth1 mx_depth1]. apply D.
  - split; [|split].
    + intro k. rewrite (cnt_fput _ _ _ _ _ _ Hn), fdepth_snoc. cbn [fdepth1 mx_depth1]. rewrite <- D. destruct (Nat.eqb_spec k i) as [->|]; cbn [andb]; lia.
    + intros k Hk. cbn [favail] in Hk. specialize (A i Hk). lia.
    + intros k l. rewrite !(cnt_fput _ _ _ _ _ _ Hn). destruct (Nat.eqb_spec k i) as [->|], (Nat.eqb_spec l i) as [->|]; intros Hk Hl; try reflexivity; apply U; lia.
  - assert (Z : forall k, k <> i -> cnt s k = 0) by (intros k Hk; destruct (N.eq_dec (cnt s k) 0) as [E|E]; [exact E|exfalso; apply Hk, U; lia]).
    split; [|split].
    + intro k. rewrite (cnt_fput _ _ _ _ _ _ Hn), fdepth_snoc. cbn [fdepth1 mx_depth1]. rewrite <- D. destruct (Nat.eqb_spec k i) as [->|]; cbn [andb]; [|reflexivity]. destruct all; [reflexivity|]. destruct Ha as [X|X]; [discriminate|lia].
    + intros k _. rewrite (cnt_fput _ _ _ _ _ _ Hn). destruct (Nat.eqb_spec k i) as [->|Hk]; [reflexivity|exact (Z k Hk)].
    + intros k l. rewrite !(cnt_fput _ _ _ _ _ _ Hn). destruct (Nat.eqb_spec k i) as [->|Hk]; [congruence|]. rewrite (Z k Hk). congruence.
  - pose proof (F tr i (length (fprocs s)) [] eq_refl) as Fi. rewrite <- D in Fi. 
    assert (C0 : c = 0) by lia. rewrite C0 in *. clear c C0.
    assert (E : forall k, cnt (Forks (favail s) (fprocs s ++ [Some 0])) k = cnt s k).
    { intro k. unfold cnt. cbn [fprocs]. destruct (Nat.lt_trichotomy k (length (fprocs s))) as [L|[L|L]].
      - rewrite nth_error_app1 by exact L. reflexivity.
      - subst k. rewrite nth_error_app2, Nat.sub_diag by lia. cbn [nth_error]. rewrite (proj2 (nth_error_None (fprocs s) (length (fprocs s)))) by lia. reflexivity.
      - rewrite !(proj2 (nth_error_None _ k)); [reflexivity|lia|rewrite app_length; cbn [length]; lia]. }
    split; [|split].
    + intro k. rewrite E, fdepth_snoc. cbn [fdepth1]. destruct (Nat.eqb_spec k (length (fprocs s))) as [->|]; [|apply D]. unfold cnt. rewrite (proj2 (nth_error_None (fprocs s) (length (fprocs s)))) by lia. reflexivity.
    + intros k Hk. rewrite E. exact (A k Hk).
    + intros k l. rewrite !E. apply U.
  - split; [|split].
    + intro k. rewrite (cnt_fput _ _ _ _ _ _ Hn), fdepth_snoc. cbn [fdepth1]. rewrite <- D. destruct (Nat.eqb k i); reflexivity.
    + intros k Hk. rewrite (cnt_fput _ _ _ _ _ _ Hn). destruct (Nat.eqb_spec k i) as [->|Ne]; [reflexivity|]. cbn [favail] in Hk. destruct (N.eqb_spec c 0) as [->|Hc]; [exact (A k Hk)|].
      destruct (N.eq_dec (cnt s k) 0) as [E|E]; [exact E|exfalso; apply Ne, U; lia].
    + intros k l. rewrite !(cnt_fput _ _ _ _ _ _ Hn). destruct (Nat.eqb_spec k i), (Nat.eqb_spec l i); try congruence. apply U.
  - split; [|split].
    + intro k. rewrite (cnt_fput _ _ _ _ _ _ Hn), fdepth_snoc. cbn [fdepth1]. rewrite <- D. destruct (Nat.eqb k i); reflexivity.
    + intros k Hk. rewrite (cnt_fput _ _ _ _ _ _ Hn). destruct (Nat.eqb k i); [reflexivity|exact (A k Hk)].
    + intros k l. rewrite !(cnt_fput _ _ _ _ _ _ Hn). destruct (Nat.eqb_spec k i), (Nat.eqb_spec l i); try congruence. apply U.
Qed.

Lemma good_run n tr s : frun (forks_init n) tr s -> forks_free tr -> good s tr.
Proof.
  intro R. remember (forks_init n) as s0. induction R as [s|s tr s1 e s2 R IH S]; intro F; [subst; apply good_init|].
  apply (good_step s1); [apply IH; [exact Heqs0|exact (forks_free_snoc _ _ F)]|exact F|exact S].
Qed.
