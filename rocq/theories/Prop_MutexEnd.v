(** C154: mutexes (POSIX) and threads that end. *)
From Verif Require Import Base S_Sync S_MutexEnd M_MutexEnd P_MutexEnd.
Open Scope N_scope.

(** No two living threads hold the mutex, whichever threads start, end, lock and unlock, and however
    identifiers are used again. *)
Theorem C154_excludes : forall tr s i j, trun ends_init tr s -> 0 < tdepth tr i -> 0 < tdepth tr j -> i = j.
Proof.
  intros tr s i j R Hi Hj. destruct (tgood_run tr s R) as (D & H & _). destruct (H i ltac:(lia)) as (a & Ea & Oa). destruct (H j ltac:(lia)) as (b & Eb & Ob).
  apply (D i j a); congruence.
Qed.

(** REFUTED: if the holder ends, no Lock ever returns true again, whatever happens then, unless a new
    thread gets its identifier. *)
Theorem C154_stuck_refuted : forall tr s i a s1 tr2 s2, trun ends_init tr s -> 0 < tdepth tr i -> nth_error (tlive s) i = Some (Some a) ->
  tstep s (TEnd i) s1 -> trun s1 tr2 s2 -> ~ In (TStart a) tr2 -> forall k, ~ In (TCall (MLocked k 0)) tr2.
Proof.
  intros tr s i a s1 tr2 s2 R Hi Ei S R2 N. destruct (tgood_run tr s R) as (D & H & _ & A). destruct (H i ltac:(lia)) as (b & Eb & Ob). assert (b = a) by congruence. subst b.
  apply (lost_run a s1 tr2 s2 R2); [|exact N]. inversion S; subst. split; [exact Ob|]. cbn [tavail tlive]. split; [destruct (tavail s); [specialize (A eq_refl); congruence|reflexivity]|].
  intros k E. destruct (Nat.eq_dec k i) as [->|Nk]; [rewrite upd_nth_same in E by (apply nth_error_Some; congruence); discriminate|]. rewrite upd_nth_other in E by congruence. apply Nk, (D k i a); assumption.
Qed.

(** REFUTED: if a new thread gets its identifier, that one has the mutex without asking: its Lock
    returns true at once, and so does its Unlock, though it has not locked anything. *)
Theorem C154_reused_refuted : forall tr s i a, trun ends_init tr s -> 0 < tdepth tr i -> nth_error (tlive s) i = Some (Some a) ->
  exists k s1 s2, let tr' := tr ++ [TEnd i; TStart a] in k <> i /\ tdepth tr' k = 0 /\ trun ends_init (tr' ++ [TCall (MLocked k 0)]) s1 /\ trun ends_init (tr' ++ [TCall (MUnlocked k 0 true)]) s2.
Proof.
  intros tr s i a R Hi Ei. destruct (tgood_run tr s R) as (D & H & _). destruct (H i ltac:(lia)) as (b & Eb & Ob). assert (b = a) by congruence. subst b.
  assert (Li : (i < length (tlive s))%nat) by (apply nth_error_Some; congruence). set (k := length (tlive s)). set (s3 := Ends (tavail s) (towner s) (tcount s) (upd (tlive s) i None ++ [Some a])).
  assert (R3 : trun ends_init (tr ++ [TEnd i; TStart a]) s3).
  { replace (tr ++ [TEnd i; TStart a]) with ((tr ++ [TEnd i]) ++ [TStart a]) by (rewrite <- app_assoc; reflexivity). eapply trun_step; [eapply trun_step; [exact R|exact (t_end s i a Ei)]|].
    apply (t_start (Ends (tavail s) (towner s) (tcount s) (upd (tlive s) i None)) a). cbn [tlive]. intros l E. destruct (Nat.eq_dec l i) as [->|Nl]; [rewrite upd_nth_same in E by exact Li; discriminate|]. rewrite upd_nth_other in E by congruence. apply Nl, (D l i a); assumption. }
  assert (Ek : nth_error (tlive s3) k = Some (Some a)) by (unfold s3, k; cbn [tlive]; rewrite nth_error_app2, upd_length, Nat.sub_diag by (rewrite upd_length; lia); reflexivity).
  exists k. eexists. eexists. cbv zeta. split; [unfold k; lia|]. split; [|split].
  - unfold tdepth. rewrite fold_left_app. cbn [fold_left tdepth1]. destruct (Nat.eqb_spec k i) as [E|_]; [reflexivity|]. fold (tdepth tr k). destruct (N.eq_dec (tdepth tr k) 0) as [E|E]; [exact E|]. destruct (H k E) as (b & X & _). rewrite (proj2 (nth_error_None (tlive s) k)) in X by (unfold k; lia). discriminate.
  - eapply trun_step; [exact R3|]. apply (t_again s3 k a); [exact Ek|exact Ob].
  - eapply trun_step; [exact R3|]. apply (t_free s3 k a true); [exact Ek|exact Ob|left; reflexivity].
Qed.

(** Threads 0 and 1, with identifiers 7 and 8: thread 0 locks and ends, thread 1 does not get the mutex;
    then thread 2 starts with identifier 7 and unlocks. *)
Example C154_ex : let tr := [TStart 7; TStart 8; TCall (MLocked 0 0); TEnd 0; TCall (MNotLocked 1 0); TStart 7; TCall (MUnlocked 2 0 false)] in
  trun ends_init tr (Ends true None 0 [None; Some 8%nat; Some 7%nat]) /\ tdepth (firstn 3 tr) 0 = 1.
Proof.
  cbv zeta. split; [|reflexivity].
  change [TStart 7; TStart 8; TCall (MLocked 0 0); TEnd 0; TCall (MNotLocked 1 0); TStart 7; TCall (MUnlocked 2 0 false)]
    with ((((((([] ++ [TStart 7]) ++ [TStart 8]) ++ [TCall (MLocked 0 0)]) ++ [TEnd 0]) ++ [TCall (MNotLocked 1 0)]) ++ [TStart 7]) ++ [TCall (MUnlocked 2 0 false)]).
  eapply trun_step; [eapply trun_step; [eapply trun_step; [eapply trun_step; [eapply trun_step; [eapply trun_step; [eapply trun_step; [apply trun_nil|]|]|]|]|]|]|].
  - apply (t_start ends_init 7). intros [|i]; discriminate.
  - apply (t_start (Ends true None 0 [Some 7%nat]) 8). intros [|[|i]]; discriminate.
  - apply (t_lock (Ends true None 0 [Some 7%nat; Some 8%nat]) 0 7); [reflexivity|discriminate|reflexivity].
  - apply (t_end (Ends false (Some 7%nat) 1 [Some 7%nat; Some 8%nat]) 0 7). reflexivity.
  - apply (t_notlocked (Ends false (Some 7%nat) 1 [None; Some 8%nat]) 1 8); [reflexivity|discriminate].
  - apply (t_start (Ends false (Some 7%nat) 1 [None; Some 8%nat]) 7). intros [|[|[|i]]]; discriminate.
  - apply (t_free (Ends false (Some 7%nat) 1 [None; Some 8%nat; Some 7%nat]) 2 7 false); [reflexivity|reflexivity|right; reflexivity].
Qed.

Print Assumptions C154_excludes.
Print Assumptions C154_stuck_refuted.
Print Assumptions C154_reused_refuted.
