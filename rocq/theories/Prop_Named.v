(** C46, C80: opening named objects. *)
From Verif Require Import Base S_Named M_Named P_Sem P_Named.
Open Scope N_scope.

(** ** C46: while somebody always has the object open, it is initialised once, before anybody uses it *)
Theorem C46_once n tr s : N.of_nat n < W32 -> nrun (named_init n) tr s -> kept tr ->
  proper false tr = true /\ (forall i, nth_error (procs s) i = Some NOpen -> contents s = true).
Proof.
  intros W R K. destruct (nrun_inv _ _ _ W R K) as [I _]. split; [exact (i_proper _ _ I)|]. intros i E.
  pose proof (i_inits _ _ I) as X. pose proof (tally_in active _ _ _ E) as A. cbn [active] in A.
  destruct (made s) eqn:M; [|rewrite (i_idle _ _ I M) in A; lia].
  assert (P : tally preinit (procs s) = O).
  { pose proof (i_past _ _ I) as P. pose proof (tally_in past _ _ _ E) as Q. pose proof (tally_in late _ _ _ E) as L. cbn [past late] in Q, L.
    pose proof (i_late _ _ I) as T. pose proof (i_status _ _ I) as U. destruct (status s); [|rewrite T in L by reflexivity; lia].
    assert (LE2 : (tally preinit (procs s) <= tally early (procs s) + tally mid (procs s))%nat).
    { clear. induction (procs s) as [|p l IH]; [cbn; lia|]. cbn [tally fold_right]. fold (tally preinit l) (tally early l) (tally mid l). destruct p as [| | | | [] | [] | | | | | | |]; cbn [preinit early mid]; lia. }
    cbn [b2n] in U. rewrite M in U. cbn [b2n] in U. destruct (tally mid (procs s)); [lia|]. rewrite P in Q by lia. lia. }
  rewrite (i_contents _ _ I M). cbn [b2n] in X. rewrite P in X. replace (inits tr) with 1%nat by lia. reflexivity.
Qed.
Print Assumptions C46_once.

Lemma nrun_front s0 tr0 s1 : nrun s0 tr0 s1 -> forall tr s2, nrun s1 tr s2 -> nrun s0 (tr0 ++ tr) s2.
Proof. intros R tr s2 Q. induction Q as [|s tr sm e sn Q IH S]; [rewrite app_nil_r; exact R|]. rewrite app_assoc. eapply nrun_step; [exact (IH R)|exact S]. Qed.
Lemma nfront s e s1 tr s2 : nstep s e s1 -> nrun s1 tr s2 -> nrun s (nseen e ++ tr) s2.
Proof. intros S R. exact (nrun_front s (nseen e) s1 (nrun_step s [] s e s1 (nrun_nil s) S) tr s2 R). Qed.

Tactic Notation "by_step" uconstr(c) := eapply nfront; [eapply c; try reflexivity; try discriminate|cbn [nput procs upd made status nmtx ref contents]].

(** Two processes; one creates, the other waits for it; then the creator closes. *)
Example C46_once_ex : exists tr s, nrun (named_init 2) tr s /\ tr = [NInited 0; NReturned 0; NReturned 1; NClosed 0] /\ kept tr.
Proof.
  eexists _, _. split; [|split].
  - unfold named_init. cbn [repeat].
    by_step (n_create _ 0%nat). by_step (n_open _ 1%nat). by_step (n_make _ 0%nat). by_step (n_status _ 0%nat). by_step (n_seen _ 1%nat). by_step (n_ref _ 0%nat).
    by_step (n_init _ 0%nat true). by_step (n_ready _ 0%nat true). by_step (n_lock _ 1%nat). by_step (n_more _ 1%nat). by_step (n_opened _ 1%nat). by_step (n_close _ 0%nat). by_step (n_clock _ 0%nat). by_step (n_gone _ 0%nat).
    apply nrun_nil.
  - reflexivity.
  - cbn [nseen app]. intros a b E T. destruct a as [|x [|y [|z [|w [|v a]]]]]; cbn [app] in E; inversion E; subst; try discriminate T; vm_compute; reflexivity.
Qed.

(** After the last close it is not so: with three processes, one may open, find the object, and use
    it before it is initialised again; and the process that initialises it then unlocks a mutex that it
    has not locked. *)
Theorem C46_refuted :
  (exists tr s, nrun (named_init 3) tr s /\ tr = [NInited 0; NReturned 0; NClosed 0; NReturned 2] /\ nth_error (procs s) 2 = Some NOpen /\ contents s = false) /\
  (exists tr s, nrun (named_init 2) tr s /\ tr = [NInited 0; NReturned 0; NClosed 0; NInited 1; NUndefined 1]).
Proof.
  split.
  - eexists _, _. split. { unfold named_init. cbn [repeat].
    by_step (n_create _ 0%nat). by_step (n_make _ 0%nat). by_step (n_status _ 0%nat). by_step (n_ref _ 0%nat).
    by_step (n_init _ 0%nat true). by_step (n_ready _ 0%nat true). by_step (n_close _ 0%nat). by_step (n_clock _ 0%nat). by_step (n_gone _ 0%nat).
    by_step (n_open _ 1%nat). by_step (n_seen _ 1%nat). by_step (n_lock _ 1%nat). by_step (n_first _ 1%nat). by_step (n_again _ 1%nat).
    by_step (n_open _ 2%nat). by_step (n_seen _ 2%nat). by_step (n_lock _ 2%nat). by_step (n_more _ 2%nat). by_step (n_opened _ 2%nat).
    apply nrun_nil. } repeat split; reflexivity.
  - eexists _, _. split. { unfold named_init. cbn [repeat].
    by_step (n_create _ 0%nat). by_step (n_make _ 0%nat). by_step (n_status _ 0%nat). by_step (n_ref _ 0%nat).
    by_step (n_init _ 0%nat true). by_step (n_ready _ 0%nat true). by_step (n_close _ 0%nat). by_step (n_clock _ 0%nat). by_step (n_gone _ 0%nat).
    by_step (n_open _ 1%nat). by_step (n_seen _ 1%nat). by_step (n_lock _ 1%nat). by_step (n_first _ 1%nat). by_step (n_again _ 1%nat).
    by_step (n_init _ 1%nat false). by_step (n_ready_ub _ 1%nat false).
    apply nrun_nil. } repeat split; reflexivity.
Qed.
Print Assumptions C46_refuted.

(** ** C80: what opening clears *)
Lemma align_bound a x : a <> 0 -> x <= align_size a x < x + a /\ align_size a x mod a = 0.
Proof.
  intro Z. unfold align_size. pose proof (N.mod_lt x a Z) as L. destruct (N.eqb_spec (x mod a) 0) as [E|E]; [split; [lia|exact E]|].
  pose proof (N.div_mod x a Z) as D. generalize dependent (x mod a). generalize (x / a). intros q r L E D. split; [lia|]. replace (x + (a - r)) with (0 + (q + 1) * a) by nia. rewrite N.mod_add by exact Z. apply N.mod_0_l. exact Z.
Qed.

Lemma pred_mod o p : p <> 0 -> 1 <= o -> (o - 1) mod p = if o mod p =? 0 then p - 1 else o mod p - 1.
Proof.
  intros P O. pose proof (N.mod_lt o p P) as L. pose proof (N.div_mod o p P) as D. generalize dependent (o mod p). generalize (o / p). intros q r L D.
  symmetry. destruct (N.eqb_spec r 0) as [E|E].
  - assert (1 <= q) by (destruct q; lia). apply (N.mod_unique _ _ (q - 1)); [lia|]. subst r. nia.
  - apply (N.mod_unique _ _ q); lia.
Qed.

(** For every size of the object in bytes, more is cleared than the object has; if the object ends too
    near the end of a page, memory outside the mapping is written. *)
Theorem C80_refuted align mutex size page : align <> 0 -> page <> 0 ->
  object_size align mutex size < cleared_to align mutex size /\
  (page < (object_size align mutex size - 1) mod page + 1 + start_pos align mutex -> mapped_to align mutex size page < cleared_to align mutex size).
Proof.
  intros A P. assert (S : 1 <= start_pos align mutex) by (unfold start_pos; pose proof (align_bound align 1 A); lia).
  unfold cleared_to, mapped_to. split; [lia|]. intro H. unfold align_size.
  assert (O : 1 <= object_size align mutex size) by (pose proof (align_bound align (size + start_pos align mutex) A); unfold object_size; lia).
  rewrite pred_mod in H by assumption. pose proof (N.mod_lt (object_size align mutex size) page P) as L.
  generalize dependent (object_size align mutex size mod page). intro r. destruct (N.eqb_spec r 0); intros; lia.
Qed.
Print Assumptions C80_refuted.

(** Otherwise only the rest of the last page is cleared too. *)
Theorem C80_fits align mutex size page : align <> 0 -> page <> 0 ->
  (object_size align mutex size - 1) mod page + 1 + start_pos align mutex <= page -> cleared_to align mutex size <= mapped_to align mutex size page.
Proof.
  intros A P H. assert (S : 1 <= start_pos align mutex) by (unfold start_pos; pose proof (align_bound align 1 A); lia).
  unfold cleared_to, mapped_to. unfold align_size.
  assert (O : 1 <= object_size align mutex size) by (pose proof (align_bound align (size + start_pos align mutex) A); unfold object_size; lia).
  rewrite pred_mod in H by assumption. pose proof (N.mod_lt (object_size align mutex size) page P) as L.
  generalize dependent (object_size align mutex size mod page). intro r. destruct (N.eqb_spec r 0); intros; lia.
Qed.
Print Assumptions C80_fits.

(** On 64-bit Linux (4, 40, pages of 4096 bytes) a shared memory object of 4004 bytes fits its page
    but clearing it writes past the page. *)
Example C80_ex : mapped_to 4 40 4004 4096 = 4096 /\ cleared_to 4 40 4004 = 4100 /\ cleared_to 4 40 64 <= mapped_to 4 40 64 4096.
Proof. vm_compute. repeat split; discriminate. Qed.
