(** Proofs about named objects when processes end. *)
From Verif Require Import Base S_Named M_Named M_NamedDie P_Sem P_Named P_Progress.
Open Scope N_scope.

(** Making the object for the first time; waiting to be let in. *)
Definition fresh (p : npc) : bool := match p with NNew | NMake | NMake2 | NInit true | NReady true => true | _ => false end.
Definition outside (p : npc) : bool := match p with NIdle | NSpin | NLock => true | _ => false end.
Definition starting (p : npc) : bool := match p with NNew | NMake => true | _ => false end.
Definition keeps (p : npc) : bool := Nat.eqb (holds p) 1.
Definition counts (p : npc) : bool := Nat.eqb (counted p) 1.

Record winv (s : named) : Prop := WInv {
  w_idle : made s = false -> forall i p, nth_error (procs s) i = Some p -> p = NIdle;
  w_fresh : forall i p j q, nth_error (procs s) i = Some p -> fresh p = true -> nth_error (procs s) j = Some q -> i <> j -> outside q = true;
  w_status : status s = false -> forall i p, nth_error (procs s) i = Some p -> starting p = true \/ p = NIdle \/ p = NSpin;
  w_early : forall i p, nth_error (procs s) i = Some p -> starting p = true -> status s = false;
  w_holds : forall i p, nth_error (procs s) i = Some p -> keeps p = true -> nmtx s = Some i;
  w_held : forall i, nmtx s = Some i -> exists p, nth_error (procs s) i = Some p /\ keeps p = true }.

Lemma winv_init n : winv (named_init n).
Proof.
  assert (A : forall i p, nth_error (repeat NIdle n) i = Some p -> p = NIdle) by (intros i p E; apply nth_error_In in E; apply repeat_spec in E; exact E).
  split; unfold named_init; cbn [made status nmtx procs].
  - intros _. exact A.
  - intros i p j q E F. rewrite (A i p E) in F. discriminate.
  - intros _ i p E. right. left. exact (A i p E).
  - reflexivity.
  - intros i p E K. rewrite (A i p E) in K. discriminate.
  - discriminate.
Qed.

Section Step.
Variable s : named.
Hypothesis I : winv s.
Notation ps := (procs s).

(** One process moves from [p] to [q]; the new status is [st], the new holder [m]. *)
Lemma winv_move i p q mk st m r c :
  nth_error ps i = Some p -> mk = true ->
  (fresh q = true -> forall j x, i <> j -> nth_error ps j = Some x -> outside x = true) ->
  ((exists j x, i <> j /\ nth_error ps j = Some x /\ fresh x = true) -> outside q = true) ->
  (st = false -> (starting q = true \/ q = NIdle \/ q = NSpin) /\ forall j x, i <> j -> nth_error ps j = Some x -> starting x = true \/ x = NIdle \/ x = NSpin) ->
  (starting q = true -> st = false) -> (forall j x, i <> j -> nth_error ps j = Some x -> starting x = true -> st = false) ->
  (keeps q = true -> m = Some i) -> (forall j x, i <> j -> nth_error ps j = Some x -> keeps x = true -> m = Some j) ->
  (m = Some i -> keeps q = true) -> (forall j, i <> j -> m = Some j -> exists x, nth_error ps j = Some x /\ keeps x = true) ->
  winv (Named mk st m r c (nput s i q)).
Proof.
  intros E -> F1 F2 S1 S2 S3 K1 K2 H1 H2. unfold nput. split; cbn [made status nmtx procs].
  - discriminate.
  - intros a x b y Ea Fa Eb Ne. apply nth_upd_in in Ea, Eb. destruct Ea as [[<- ->]|[Na Ea]], Eb as [[<- ->]|[Nb Eb]]; try congruence.
    + exact (F1 Fa b y Nb Eb).
    + apply F2. exists a, x. auto.
    + exact (w_fresh s I a x b y Ea Fa Eb Ne).
  - intros St a x Ea. destruct (S1 St) as [Q R]. apply nth_upd_in in Ea. destruct Ea as [[<- ->]|[Na Ea]]; [exact Q|exact (R a x Na Ea)].
  - intros a x Ea Sa. apply nth_upd_in in Ea. destruct Ea as [[<- ->]|[Na Ea]]; [exact (S2 Sa)|exact (S3 a x Na Ea Sa)].
  - intros a x Ea Ka. apply nth_upd_in in Ea. destruct Ea as [[<- ->]|[Na Ea]]; [exact (K1 Ka)|exact (K2 a x Na Ea Ka)].
  - intros a Em. destruct (Nat.eq_dec i a) as [<-|Ne].
    + exists q. split; [exact (put_same _ _ _ _ E)|exact (H1 Em)].
    + destruct (H2 a Ne Em) as (x & Ex & Kx). exists x. split; [rewrite (put_other _ _ _ _ Ne); exact Ex|exact Kx].
Qed.
End Step.

Lemma made_true s i p : winv s -> nth_error (procs s) i = Some p -> p <> NIdle -> made s = true.
Proof. intros I E N. destruct (made s) eqn:M; [reflexivity|]. exfalso. apply N. exact (w_idle s I M i p E). Qed.

Ltac fin s I i Ei :=
  let j := fresh "j" in let x := fresh "x" in let Nj := fresh "Nj" in let Ej := fresh "Ej" in let K := fresh "K" in let Sf := fresh "Sf" in let X := fresh "X" in
  first
  [ discriminate | congruence | solve [auto]
  | intros (j & x & Nj & Ej & K); pose proof (w_fresh s I j x i _ Ej K Ei ltac:(congruence)); discriminate
  | intros (j & x & Nj & Ej & K); match goal with F : forall j x, i <> j -> _ |- _ => specialize (F j x Nj Ej) end; destruct x as [| | | |[]|[]| | | | | | |]; discriminate
  | intros j x Nj Ej K; exact (w_early s I j x Ej K)
  | intros j x Nj Ej K; exact (w_holds s I j x Ej K)
  | intros j Nj X; exact (w_held s I j X)
  | intros j x Nj Ej K; match goal with M : nmtx s = Some i |- _ => rewrite (w_holds s I j x Ej K) in M; congruence end
  | intros j x Nj Ej K; match goal with F : forall j x, i <> j -> _ |- _ => specialize (F j x Nj Ej) end; destruct x as [| | | |[]|[]| | | | | | |]; discriminate
  | intros j x Nj Ej K; match goal with N : forall j x, _ -> keeps x = false |- _ => rewrite (N j x Ej) in K; discriminate end
  | intro X; destruct (w_held s I i X) as (?p & ?Ep & ?Kp); match goal with E : nth_error (procs s) i = Some ?q |- _ => rewrite Ei in E; injection E as <-; discriminate end
  | intro Sf; destruct (w_status s I Sf i _ Ei) as [X|[X|X]]; discriminate
  | intro Sf; split; [solve [auto]|]; intros j x _ Ej; refine (w_status s I _ j x Ej); assumption ].

Lemma winv_step s e s' : winv s -> nstep s e s' -> winv s'.
Proof.
  intros I St. destruct St as [s i Ei M|s i Ei|s i Ei|s i Ei|s i f Ei|s i f Ei Mi|s i f Ei Mi|s i Ei M|s i Ei St|s i Ei Mi|s i Ei R|s i Ei R|s i Ei|s i Ei|s i Ei|s i Ei Mi|s i Ei].
  (* n_create *)
  - assert (A : forall j x, nth_error (procs s) j = Some x -> x = NIdle) by exact (w_idle s I M).
    apply (winv_move s I i NIdle NNew); auto.
    + intros _ j x _ Ej. rewrite (A j x Ej). reflexivity.
    + intros (j & x & _ & Ej & Fx). rewrite (A j x Ej) in Fx. discriminate.
    + intros _. split; [left; reflexivity|]. intros j x _ Ej. right. left. exact (A j x Ej).
    + discriminate.
    + intros j x _ Ej K. rewrite (A j x Ej) in K. discriminate.
    + discriminate.
    + discriminate.
  (* n_make *)
  - pose proof (made_true s i _ I Ei ltac:(discriminate)) as M. pose proof (w_early s I i _ Ei eq_refl) as Sf.
    pose proof (fun j x Nj Ej => w_fresh s I i NNew j x Ei eq_refl Ej Nj) as F.
    apply (winv_move s I i NNew NMake); fin s I i Ei.
  (* n_status *)
  - pose proof (made_true s i _ I Ei ltac:(discriminate)) as M. pose proof (w_early s I i _ Ei eq_refl) as Sf.
    pose proof (fun j x Nj Ej => w_fresh s I i NMake j x Ei eq_refl Ej Nj) as F. pose proof (w_holds s I i _ Ei eq_refl) as Mi.
    apply (winv_move s I i NMake NMake2); fin s I i Ei.
  (* n_ref *)
  - pose proof (made_true s i _ I Ei ltac:(discriminate)) as M.
    pose proof (fun j x Nj Ej => w_fresh s I i NMake2 j x Ei eq_refl Ej Nj) as F. pose proof (w_holds s I i _ Ei eq_refl) as Mi.
    apply (winv_move s I i NMake2 (NInit true)); fin s I i Ei.
  (* n_init *)
  - pose proof (made_true s i _ I Ei ltac:(discriminate)) as M.
    destruct f.
    + pose proof (fun j x Nj Ej => w_fresh s I i (NInit true) j x Ei eq_refl Ej Nj) as F. pose proof (w_holds s I i _ Ei eq_refl) as Mi.
      apply (winv_move s I i (NInit true) (NReady true)); fin s I i Ei.
    + apply (winv_move s I i (NInit false) (NReady false)); fin s I i Ei.
  (* n_ready *)
  - pose proof (made_true s i _ I Ei ltac:(discriminate)) as M.
    destruct (w_held s I i Mi) as (p & Ep & Kp). rewrite Ei in Ep. injection Ep as <-. destruct f; [|discriminate].
    pose proof (fun j x Nj Ej => w_fresh s I i (NReady true) j x Ei eq_refl Ej Nj) as F.
    apply (winv_move s I i (NReady true) NOpen); fin s I i Ei.
  (* n_ready_ub *)
  - exact I.
  (* n_open *)
  - apply (winv_move s I i NIdle NSpin); fin s I i Ei.
  (* n_seen *)
  - pose proof (made_true s i _ I Ei ltac:(discriminate)) as M.
    apply (winv_move s I i NSpin NLock); fin s I i Ei.
  (* n_lock *)
  - pose proof (made_true s i _ I Ei ltac:(discriminate)) as M.
    assert (NK : forall j x, nth_error (procs s) j = Some x -> keeps x = false).
    { intros j x Ej. destruct (keeps x) eqn:K; [|reflexivity]. rewrite (w_holds s I j x Ej K) in Mi. discriminate. }
    assert (Sf : status s = true). { destruct (status s) eqn:Q; [reflexivity|]. destruct (w_status s I Q i _ Ei) as [X|[X|X]]; discriminate. }
    apply (winv_move s I i NLock NLocked); first [fin s I i Ei | idtac].
    intros (j & x & Nj & Ej & Fx). pose proof (NK j x Ej) as K. destruct x as [| | | |[]|[]| | | | | | |]; try discriminate. rewrite (w_early s I j _ Ej eq_refl) in Sf. discriminate.
  (* n_more *)
  - pose proof (made_true s i _ I Ei ltac:(discriminate)) as M. pose proof (w_holds s I i _ Ei eq_refl) as Mi.
    apply (winv_move s I i NLocked (NUnlock false)); fin s I i Ei.
  (* n_first *)
  - pose proof (made_true s i _ I Ei ltac:(discriminate)) as M. pose proof (w_holds s I i _ Ei eq_refl) as Mi.
    apply (winv_move s I i NLocked (NUnlock true)); fin s I i Ei.
  (* n_opened *)
  - pose proof (made_true s i _ I Ei ltac:(discriminate)) as M. pose proof (w_holds s I i _ Ei eq_refl) as Mi.
    apply (winv_move s I i (NUnlock false) NOpen); fin s I i Ei.
  (* n_again *)
  - pose proof (made_true s i _ I Ei ltac:(discriminate)) as M. pose proof (w_holds s I i _ Ei eq_refl) as Mi.
    apply (winv_move s I i (NUnlock true) (NInit false)); fin s I i Ei.
  (* n_close *)
  - pose proof (made_true s i _ I Ei ltac:(discriminate)) as M.
    apply (winv_move s I i NOpen NClose); fin s I i Ei.
  (* n_clock *)
  - pose proof (made_true s i _ I Ei ltac:(discriminate)) as M.
    assert (NK : forall j x, nth_error (procs s) j = Some x -> keeps x = false).
    { intros j x Ej. destruct (keeps x) eqn:K; [|reflexivity]. rewrite (w_holds s I j x Ej K) in Mi. discriminate. }
    apply (winv_move s I i NClose NClosing); fin s I i Ei.
  (* n_gone *)
  - pose proof (made_true s i _ I Ei ltac:(discriminate)) as M. pose proof (w_holds s I i _ Ei eq_refl) as Mi.
    apply (winv_move s I i NClosing NIdle); fin s I i Ei.
Qed.

Lemma winv_back s i p : winv s -> nth_error (procs s) i = Some p -> p = NNew \/ p = NSpin -> winv (Named (made s) (status s) (nmtx s) (ref s) (contents s) (nput s i NIdle)).
Proof.
  intros I Ei H. assert (M : made s = true) by (apply (made_true s i p I Ei); destruct H; subst; discriminate).
  destruct H; subst p; (eapply (winv_move s I i _ NIdle); [exact Ei|..]); fin s I i Ei.
Qed.

Lemma dwinv_step nm ab s d e s' d' : winv s -> dstep nm ab (s, d) e (s', d') -> winv s'.
Proof.
  intros I St. inversion St; subst; [eapply winv_step; eassumption|exact I| |]; eapply winv_back; eauto.
Qed.
Lemma dwinv_run nm ab n tr s d : drun nm ab (named_init n, []) tr (s, d) -> winv s.
Proof.
  intro R. remember (named_init n, []) as s0 eqn:E0. remember (s, d) as s1 eqn:E1. revert s d E1. induction R as [s1|s0 tr s1 e s2 R IH St]; intros s d E1; subst.
  - injection E1 as <- <-. apply winv_init.
  - destruct s1 as [s1 d1]. eapply dwinv_step; [exact (IH eq_refl s1 d1 eq_refl)|exact St].
Qed.


(** ** Nobody gets in any more *)
Definition blocked (s : named) (dead : list nat) : Prop :=
  (made s = true /\ status s = false /\ forall i p, nth_error (procs s) i = Some p -> starting p = true -> In i dead) \/
  (exists i, In i dead /\ nmtx s = Some i).

Lemma upd_same_dead (s : named) i p q j : nth_error (procs s) i = Some p -> p <> q -> nth_error (nput s i q) j = nth_error (procs s) j -> i <> j.
Proof. intros E N H ->. unfold nput in H. rewrite (put_same _ _ _ _ E), E in H. congruence. Qed.

Lemma blocked_step nm ab s d e s' d' : winv s -> blocked s d -> dstep nm ab (s, d) e (s', d') -> blocked s' d' /\ forall i, e <> Some (NReturned i).
Proof.
  intros I B St. inversion St; subst.
  - (* a step of the code *)
    match goal with H : nstep s e s', K : forall i, In i d' -> _ |- _ => rename H into Sn, K into Dd end.
    destruct B as [(M & Sf & Al)|(k & Hk & Mk)].
    + assert (Ns : forall i p, nth_error (procs s) i = Some p -> starting p = false -> p = NIdle \/ p = NSpin).
      { intros i p E S0. destruct (w_status s I Sf i p E) as [X|X]; [congruence|exact X]. }
      destruct Sn; try congruence;
        try (match goal with E : nth_error (procs s) ?i = Some ?p |- _ => destruct (Ns i p E eq_refl) as [X|X]; discriminate X end);
        try (match goal with E : nth_error (procs s) ?i = Some ?p |- _ => exfalso; destruct (Dd i (Al i _ E eq_refl)) as [X _]; refine (upd_same_dead s i p _ i E _ X eq_refl); discriminate end).
      * split; [|discriminate]. left. cbn [made status procs]. split; [exact M|]. split; [exact Sf|]. intros j q Ej Sq. unfold nput in Ej. apply nth_upd_in in Ej.
        destruct Ej as [[<- ->]|[Nj Ej]]; [discriminate|exact (Al j q Ej Sq)].
    + destruct (w_held s I k Mk) as (pk & Ek & Kk). destruct (Dd k Hk) as [Dk _].
      assert (Mine : forall i p, nth_error (procs s) i = Some p -> keeps p = true -> i = k) by (intros i p E K; pose proof (w_holds s I i p E K); congruence).
      destruct Sn; try congruence;
        try (match goal with E : nth_error (procs s) ?i = Some ?p |- _ => exfalso; pose proof (Mine i p E eq_refl); subst; refine (upd_same_dead s k p _ k E _ Dk eq_refl); discriminate end);
        try (split; [right; exists k; split; [exact Hk|exact Mk]|discriminate]).
      * exfalso. match goal with X : made s = false |- _ => pose proof (w_idle s I X k pk Ek) end. subst pk. discriminate.
      * exfalso. match goal with E : nth_error (procs s) ?i = Some NNew |- _ => pose proof (w_fresh s I i NNew k pk E eq_refl Ek) as Q; destruct (Nat.eq_dec i k) as [->|Ne]; [rewrite E in Ek; injection Ek as <-; discriminate|specialize (Q Ne); destruct pk as [| | | |[]|[]| | | | | | |]; discriminate] end.
      * exfalso. match goal with A : nmtx s = Some ?i, E : nth_error (procs s) ?i = Some ?p |- _ => assert (i = k) by congruence; subst; refine (upd_same_dead s k p _ k E _ Dk eq_refl); discriminate end.
  - split; [|discriminate]. destruct B as [(M & Sf & Al)|(k & Hk & Mk)].
    + left. split; [exact M|]. split; [exact Sf|]. intros j q Ej Sq. right. exact (Al j q Ej Sq).
    + right. exists k. split; [right; exact Hk|exact Mk].
  - split; [|discriminate]. destruct B as [(M & Sf & Al)|(k & Hk & Mk)].
    + left. cbn [made status procs]. split; [exact M|]. split; [exact Sf|]. intros j q Ej Sq. unfold nput in Ej. apply nth_upd_in in Ej.
      destruct Ej as [[<- ->]|[Nj Ej]]; [discriminate|exact (Al j q Ej Sq)].
    + right. exists k. split; [exact Hk|exact Mk].
  - split; [|discriminate]. destruct B as [(M & Sf & Al)|(k & Hk & Mk)].
    + left. cbn [made status procs]. split; [exact M|]. split; [exact Sf|]. intros j q Ej Sq. unfold nput in Ej. apply nth_upd_in in Ej.
      destruct Ej as [[<- ->]|[Nj Ej]]; [discriminate|exact (Al j q Ej Sq)].
    + right. exists k. split; [exact Hk|exact Mk].
Qed.

Lemma blocked_run nm ab s d tr s' d' : winv s -> blocked s d -> drun nm ab (s, d) tr (s', d') -> (winv s' /\ blocked s' d') /\ forall i, ~ In (NReturned i) tr.
Proof.
  intros I B R. remember (s, d) as a eqn:Ea. remember (s', d') as b eqn:Eb. revert s' d' Eb. induction R as [a|a tr s1 e s2 R IH St]; intros s' d' Eb; subst.
  - injection Eb as <- <-. split; [split; assumption|]. intros i [].
  - destruct s1 as [s1 d1]. destruct (IH eq_refl s1 d1 eq_refl) as [[I1 B1] N1]. destruct (blocked_step _ _ _ _ _ _ _ I1 B1 St) as [B2 N2].
    split; [split; [eapply dwinv_step; eassumption|exact B2]|]. intros i H. apply in_app_or in H. destruct H as [H|H]; [exact (N1 i H)|].
    destruct e as [x|]; [|destruct H]. destruct H as [->|[]]. exact (N2 i eq_refl).
Qed.

Lemma blocked_mid s d i p : winv s -> nth_error (procs s) i = Some p -> In i d -> starting p = true \/ keeps p = true -> blocked s d.
Proof.
  intros I E H [S0|K].
  - left. split; [apply (made_true s i p I E); intros ->; discriminate|]. split; [exact (w_early s I i p E S0)|].
    intros j q Ej Sq. destruct (Nat.eq_dec i j) as [<-|Ne]; [exact H|]. exfalso.
    assert (F : fresh p = true) by (destruct p; try discriminate; reflexivity). pose proof (w_fresh s I i p j q E F Ej Ne). destruct q; discriminate.
  - right. exists i. split; [exact H|exact (w_holds s I i p E K)].
Qed.

(** ** The reference count *)
Definition rinv (s : named) : Prop := ref s = N.of_nat (tally counted (procs s)).

Lemma rinv_step n s e s' : N.of_nat n < W32 -> length (procs s) = n -> winv s -> rinv s -> nstep s e s' -> rinv s' /\ length (procs s') = n.
Proof.
  intros W L I R St. unfold rinv in *.
  assert (Z : forall i p, nth_error (procs s) i = Some p -> fresh p = true -> counted p = O -> tally counted (procs s) = O).
  { intros i p E F Z. apply tally_zero. intros j q Ej. destruct (Nat.eq_dec i j) as [<-|Ne]; [congruence|]. pose proof (w_fresh s I i p j q E F Ej Ne). destruct q; try discriminate; reflexivity. }
  assert (Z0 : made s = false -> tally counted (procs s) = O).
  { intro M. apply tally_zero. intros j q Ej. rewrite (w_idle s I M j q Ej). reflexivity. }
  assert (B : (tally counted (procs s) + tally islocked (procs s) <= n)%nat).
  { subst n. clear. induction (procs s) as [|p l IH]; [cbn; lia|]. cbn [tally fold_right length]. fold (tally counted l) (tally islocked l). destruct p; cbn [counted islocked]; lia. }
  destruct St; cbn [ref procs]; try (split; [assumption|exact L]); unfold nput; (split; [|rewrite upd_length; exact L]);
    match goal with E : nth_error (procs s) ?i = Some ?p |- context [upd _ ?i ?q] => pose proof (tally_upd counted (procs s) i p q E) as T; pose proof (tally_in counted (procs s) i p E) as T1;
      pose proof (tally_in islocked (procs s) i p E) as T2; pose proof (Z i p E) as Zi; cbn [counted islocked] in T, T1, T2 end; try lia.
  - specialize (Zi eq_refl eq_refl). lia.
  - rewrite N.mod_small by lia. lia.
Qed.

Lemma drinv_step nm ab n s d e s' d' : N.of_nat n < W32 -> length (procs s) = n -> winv s -> rinv s -> dstep nm ab (s, d) e (s', d') -> rinv s' /\ length (procs s') = n.
Proof.
  intros W L I R St. inversion St; subst; [eapply rinv_step; eauto|split; auto| |]; unfold rinv, nput in *; cbn [ref procs];
    (split; [|apply upd_length]); match goal with E : nth_error (procs s) ?i = Some ?p |- context [upd _ ?i ?q] => pose proof (tally_upd counted (procs s) i p q E) as T; cbn [counted] in T end; lia.
Qed.
Lemma drinv_run nm ab n tr s d : N.of_nat n < W32 -> drun nm ab (named_init n, []) tr (s, d) -> rinv s /\ length (procs s) = n.
Proof.
  intros W R. remember (named_init n, []) as s0 eqn:E0. remember (s, d) as s1 eqn:E1. revert s d E1. induction R as [s1|s0 tr s1 e s2 R IH St]; intros s d E1; subst.
  - injection E1 as <- <-. unfold rinv, named_init. cbn [ref procs]. rewrite repeat_length. split; [|reflexivity]. rewrite tally_zero; [reflexivity|].
    intros i p E. apply nth_error_In, repeat_spec in E. subst p. reflexivity.
  - destruct s1 as [s1 d1]. destruct (IH eq_refl s1 d1 eq_refl) as [R1 L1]. eapply drinv_step; [exact W|exact L1|exact (dwinv_run _ _ _ _ _ _ R)|exact R1|exact St].
Qed.

(** Nobody makes the contents: *)
Definition user (p : npc) : bool := match p with NIdle | NOpen | NSpin | NLock | NLocked | NUnlock false | NClose | NClosing => true | _ => false end.
Definition left_over (k : nat) (s : named) (d : list nat) : Prop := In k d /\ nth_error (procs s) k = Some NOpen /\ forall i p, nth_error (procs s) i = Some p -> user p = true.

Lemma left_step nm ab k s d e s' d' : winv s -> rinv s -> left_over k s d -> dstep nm ab (s, d) e (s', d') -> left_over k s' d' /\ forall i, e <> Some (NInited i).
Proof.
  intros I R (Hk & Ek & Al) St.
  assert (P : ref s <> 0). { rewrite R. pose proof (tally_in counted (procs s) k NOpen Ek) as T. cbn [counted] in T. lia. }
  assert (M : made s = true) by (apply (made_true s k NOpen I Ek); discriminate).
  assert (Up : forall i q, (i <> k) -> user q = true -> nth_error (nput s i q) k = Some NOpen /\ forall j p, nth_error (nput s i q) j = Some p -> user p = true).
  { intros i q Ne U. unfold nput. split; [rewrite (put_other _ _ _ _ Ne); exact Ek|]. intros j p Ej. apply nth_upd_in in Ej. destruct Ej as [[_ ->]|[_ Ej]]; [exact U|exact (Al j p Ej)]. }
  inversion St; subst.
  - match goal with H : nstep s e s', K : forall i, In i d' -> _ |- _ => rename H into Sn; destruct (K k Hk) as [Dk _] end.
    destruct Sn; try congruence;
      try (match goal with E : nth_error (procs s) ?i = Some ?p |- _ => let X := fresh in pose proof (Al i p E) as X; discriminate X end);
      try (match goal with E : nth_error (procs s) ?i = Some ?p |- _ =>
        split; [split; [exact Hk|]; cbn [procs] in *; apply Up; [refine (upd_same_dead s i p _ k E _ Dk); discriminate|reflexivity]|discriminate] end).
  - split; [|discriminate]. split; [right; exact Hk|]. split; assumption.
  - exfalso. match goal with E : nth_error (procs s) ?i = Some NNew |- _ => discriminate (Al i _ E) end.
  - split; [|discriminate]. split; [exact Hk|]. cbn [procs]. apply Up; [|reflexivity]. intros ->. congruence.
Qed.

(** ** Processes that end outside of calls *)
Lemma drun_nrun s0 d0 tr s d : drun false false (s0, d0) tr (s, d) -> nrun s0 tr s.
Proof.
  intro R. remember (s0, d0) as a eqn:Ea. remember (s, d) as b eqn:Eb. revert s d Eb. induction R as [a|a tr s1 e s2 R IH St]; intros s d Eb; subst.
  - injection Eb as <- <-. constructor.
  - destruct s1 as [s1 d1]. specialize (IH eq_refl s1 d1 eq_refl). inversion St; subst; try discriminate.
    + eapply nrun_step; eassumption.
    + rewrite app_nil_r. exact IH.
Qed.
Lemma drun_dead s0 tr s d : drun false false (s0, []) tr (s, d) -> forall i, In i d -> nth_error (procs s) i = Some NIdle \/ nth_error (procs s) i = Some NOpen.
Proof.
  intro R. remember (s0, []) as a eqn:Ea. remember (s, d) as b eqn:Eb. revert s d Eb. induction R as [a|a tr s1 e s2 R IH St]; intros s d Eb; subst.
  - injection Eb as <- <-. intros i [].
  - destruct s1 as [s1 d1]. specialize (IH eq_refl s1 d1 eq_refl). inversion St; subst; try discriminate.
    + intros i Hi. match goal with K : forall i, In i d -> _ |- _ => destruct (K i Hi) as [-> _] end. exact (IH i Hi).
    + intros j [<-|Hj]; [|exact (IH j Hj)]. match goal with H : _ \/ _ \/ _ |- _ => destruct H as [->|[->|X]]; [auto|auto|discriminate X] end.
Qed.

(** A step inside of a call. *)
Definition ngoes_on (a : mortal) (e : option nm_event) (b : mortal) : Prop :=
  dstep false false a e b /\ snd b = snd a /\ (forall i, e <> Some (NUndefined i)) /\
  forall i p q, nth_error (procs (fst a)) i = Some p -> nth_error (procs (fst b)) i = Some q -> p = NIdle \/ p = NOpen -> q = p.

Definition nwork (p : npc) : nat :=
  match p with NIdle | NOpen => 0 | NNew => 5 | NMake => 4 | NMake2 => 3 | NInit _ => 2 | NReady _ => 1 | NSpin => 6 | NLock => 5 | NLocked => 4 | NUnlock _ => 3 | NClose => 2 | NClosing => 1 end.

Lemma ngoes_less a e b : ngoes_on a e b -> (tally nwork (procs (fst b)) < tally nwork (procs (fst a)))%nat.
Proof.
  intros (St & Sd & Nu & G). destruct St as [s d e s' Sn Dd|s d i p E H|s d i E N X|s d i E N X]; cbn [fst snd] in *; try discriminate.
  - destruct Sn; cbn [procs] in *; unfold nput in *; try (exfalso; eapply Nu; reflexivity);
      match goal with E : nth_error (procs s) ?i = Some ?p |- context [upd _ ?i ?q] => pose proof (tally_upd nwork (procs s) i p q E) as T; specialize (G i p q E (put_same _ _ _ _ E)); cbn [nwork] in T end;
      first [lia | exfalso; discriminate (G ltac:(auto))].
  - exfalso. assert (length (i :: d) = length d) by (rewrite Sd; reflexivity). cbn in H0. lia.
Qed.

Lemma ngoes_intro s d e s' i p q : nstep s e s' -> procs s' = upd (procs s) i q -> nth_error (procs s) i = Some p -> p <> NIdle -> p <> NOpen -> ~ In i d -> (forall j, e <> Some (NUndefined j)) -> ngoes_on (s, d) e (s', d).
Proof.
  intros Sn E Ei N1 N2 Nd Nu. assert (O : forall j, j <> i -> nth_error (procs s') j = nth_error (procs s) j) by (intros j Ne; rewrite E; apply put_other; congruence).
  split; [|split; [reflexivity|split; [exact Nu|]]].
  - apply d_step; [exact Sn|]. intros j Hj. split; [apply O; congruence|apply Nu].
  - cbn [fst]. intros j p' q' Ej Ej' H. destruct (Nat.eq_dec j i) as [->|Ne]; [|rewrite (O j Ne) in Ej'; congruence]. rewrite Ei in Ej. injection Ej as <-. destruct H; congruence.
Qed.
