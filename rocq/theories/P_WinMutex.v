(** Proofs about M_WinMutex. *)
From Verif Require Import Base S_Sync M_Mutex M_WinMutex P_Sem P_Mutex.
Open Scope N_scope.

Definition ownby (i : nat) (x : xobj) : nat := match xowner x with Some j => if Nat.eqb i j then 1%nat else 0%nat | None => 0%nat end.
Definition owning (i : nat) (s : wmutex) : nat := match nth_error (xthreads s) i with Some (XOwn _) => 1%nat | _ => 0%nat end.
(** once too often taken by this thread *)
Definition lostn (d : option nat) (i : nat) : nat := match d with Some j => if Nat.eqb i j then 1%nat else 0%nat | None => 0%nat end.

Definition xinv (d : option nat) (s : wmutex) : Prop :=
  match xos s with
  | Some (i, k) => N.to_nat k = (tally (ownby i) (xobjs s) + owning i s + lostn d i)%nat /\ 0 < k
  | None => True
  end /\
  (forall j, d = Some j -> exists k, xos s = Some (j, k)) /\
  (forall o x i, nth_error (xobjs s) o = Some x -> xowner x = Some i -> nth_error (xthreads s) i = Some XEnded \/ exists k, xos s = Some (i, k)) /\
  (forall i o, nth_error (xthreads s) i = Some (XOwn o) -> (exists k, xos s = Some (i, k)) /\ forall x, nth_error (xobjs s) o = Some x -> xowner x <> Some i) /\
  xab s = false /\
  (forall i o x, nth_error (xthreads s) i = Some (XWait o) -> nth_error (xobjs s) o = Some x -> xowner x <> Some i).

Lemma ownby_yes i x : xowner x = Some i -> ownby i x = 1%nat.
Proof. intro E. unfold ownby. rewrite E, Nat.eqb_refl. reflexivity. Qed.
Lemma ownby_no i x : xowner x <> Some i -> ownby i x = 0%nat.
Proof. intro E. unfold ownby. destruct (xowner x) as [j|]; [|reflexivity]. destruct (Nat.eqb_spec i j) as [->|]; [congruence|reflexivity]. Qed.
Lemma ownby_eq i x y : xowner x = xowner y -> ownby i x = ownby i y.
Proof. intro E. unfold ownby. rewrite E. reflexivity. Qed.

Lemma owning_put i j p ts os ab ob os' ab' ob' : owning i (WMutex os ab ob (upd ts j p)) =
  if Nat.eq_dec j i then match nth_error ts j with Some _ => match p with XOwn _ => 1%nat | _ => 0%nat end | None => 0%nat end else owning i (WMutex os' ab' ob' ts).
Proof. unfold owning. cbn [xthreads]. rewrite nth_upd. destruct (Nat.eq_dec j i); [|reflexivity]. destruct (nth_error ts j); reflexivity. Qed.

Ltac inj := repeat match goal with H : Some _ = Some _ |- _ => injection H as ?; try subst end.


(** what stays when only an object changes and its owner does not *)
Lemma same_owner s o x c d : nth_error (xobjs s) o = Some x -> xinv d s -> xinv d (WMutex (xos s) (xab s) (xset s o (XObj (xowner x) c)) (xthreads s)).
Proof.
  intros Hx (A & L & B & C & D & G). unfold xinv. cbn [xos xab xobjs xthreads]. split; [|split; [|split; [|split; [|split]]]].
  - destruct (xos s) as [[i k]|]; [|exact I]. unfold owning in *. cbn [xthreads]. unfold xset.
    pose proof (tally_upd (ownby i) (xobjs s) o x (XObj (xowner x) c) Hx) as T. rewrite (ownby_eq i (XObj (xowner x) c) x) in T by reflexivity. lia.
  - exact L.
  - intros o' y i Hy Ey. apply nth_upd_in in Hy. destruct Hy as [[<- ->]|[_ Hy]]; [exact (B o x i Hx Ey)|exact (B o' y i Hy Ey)].
  - intros i o' Hi. destruct (C i o' Hi) as [K N]. split; [exact K|]. intros y Hy. apply nth_upd_in in Hy. destruct Hy as [[<- ->]|[_ Hy]]; [exact (N x Hx)|exact (N y Hy)].
  - exact D.
  - intros i o' y Hi Hy. apply nth_upd_in in Hy. destruct Hy as [[<- ->]|[_ Hy]]; [exact (G i o x Hi Hx)|exact (G i o' y Hi Hy)].
Qed.

(** what stays when a thread that does not own moves to a place where it does not own *)
Lemma quiet s i p p' d : nth_error (xthreads s) i = Some p -> (forall o, p <> XOwn o) -> p <> XEnded -> (forall o, p' <> XOwn o) ->
  (forall o x, p' = XWait o -> nth_error (xobjs s) o = Some x -> xowner x <> Some i) -> xinv d s ->
  xinv d (WMutex (xos s) (xab s) (xobjs s) (xput s i p')).
Proof.
  intros Hp Np Ne Np' Nw (A & L & B & C & D & G). unfold xinv. cbn [xos xab xobjs xthreads]. split; [|split; [|split; [|split; [|split]]]].
  - destruct (xos s) as [[j k]|] eqn:Eo; [|exact I]. assert (E : owning j (WMutex (Some (j, k)) (xab s) (xobjs s) (xput s i p')) = owning j s).
    { unfold owning, xput. cbn [xthreads]. rewrite nth_upd. destruct (Nat.eq_dec i j) as [<-|]; [|reflexivity]. rewrite Hp.
      destruct p'; try (destruct p; try reflexivity; exfalso; eapply Np; reflexivity). exfalso. eapply Np'; reflexivity. }
    rewrite E. exact A.
  - exact L.
  - intros o y j Hy Ey. unfold xput. rewrite nth_upd. destruct (Nat.eq_dec i j) as [<-|]; [|exact (B o y j Hy Ey)].
    destruct (B o y i Hy Ey) as [X|X]; [|right; exact X]. rewrite Hp in X. congruence.
  - intros j o Hj. apply nth_upd_in in Hj. destruct Hj as [[_ Hj]|[_ Hj]]; [exfalso; eapply Np'; symmetry; exact Hj|exact (C j o Hj)].
  - exact D.
  - intros j o y Hj Hy. apply nth_upd_in in Hj. destruct Hj as [[<- Hj]|[_ Hj]]; [exact (Nw o y (eq_sym Hj) Hy)|exact (G j o y Hj Hy)].
Qed.

Lemma xstep_inv d s e s' : xstep false s e s' -> xinv d s -> xinv d s' /\ (forall i o, e = Some (MLocked i o) -> exists k, xos s = Some (i, k)).
Proof.
  intros St V. pose proof V as (A & L & B & C & D & G).
  destruct St as [s i o x Hi Hx Ex|s i o x Hi Hx Ex|s i o Hi Eo Ea|s i o k Hi Eo|s i o Hi|s i o Hi Eo Ea|s i o x Hi Hx|s i o x Hi Hx Ex|s i o all x Hi Hx Ex Hc|s i o all x Hi Hx Ex Hc|s i Hi F ?|s i k Hi F ?|s i Hi F]; try discriminate F.
  - split; [apply same_owner; assumption|]. intros i' o' E. injection E as -> ->. destruct (B o' x i' Hx Ex) as [X|X]; [congruence|exact X].
  - split; [|discriminate]. apply (quiet s i XIdle); auto; try discriminate. intros o' y E Hy. injection E as <-. congruence.
  - split; [|discriminate]. rewrite Eo in A. unfold xinv. cbn [xos xab xobjs xthreads]. split; [|split; [|split; [|split; [|split]]]].
    + assert (Z : tally (ownby i) (xobjs s) = 0%nat). { apply tally_zero. intros o' y Hy. apply ownby_no. intro Ey. destruct (B o' y i Hy Ey) as [X|[k X]]; congruence. }
      rewrite Z. unfold owning, xput. cbn [xthreads]. rewrite nth_upd, Hi. destruct (Nat.eq_dec i i); [|congruence].
      unfold lostn. destruct d as [j|]; [destruct (L j eq_refl) as [k X]; congruence|]. split; [reflexivity|lia].
    + intros j E. destruct (L j E) as [k X]. congruence.
    + intros o' y j Hy Ey. unfold xput. rewrite nth_upd. destruct (B o' y j Hy Ey) as [X|[k X]]; [|congruence]. destruct (Nat.eq_dec i j) as [<-|]; [congruence|left; exact X].
    + intros j o' Hj. apply nth_upd_in in Hj. destruct Hj as [[<- Hj]|[_ Hj]].
      * injection Hj as ->. split; [exists 1; reflexivity|]. intros y Hy Ey. destruct (B o y i Hy Ey) as [X|[k X]]; congruence.
      * destruct (C j o' Hj) as [[k X] _]. congruence.
    + reflexivity.
    + intros j o' y Hj Hy. apply nth_upd_in in Hj. destruct Hj as [[_ Hj]|[_ Hj]]; [discriminate|exact (G j o' y Hj Hy)].
  - split; [|discriminate]. rewrite Eo in A. destruct A as [A K]. unfold xinv. cbn [xos xab xobjs xthreads].
    assert (O0 : owning i s = 0%nat) by (unfold owning; rewrite Hi; reflexivity). rewrite O0 in A.
    split; [|split; [|split; [|split; [|split]]]].
    + unfold owning, xput. cbn [xthreads]. rewrite nth_upd, Hi. destruct (Nat.eq_dec i i); [|congruence]. lia.
    + intros j E. destruct (L j E) as [k' X]. rewrite Eo in X. injection X as <- _. eexists; reflexivity.
    + intros o' y j Hy Ey. unfold xput. rewrite nth_upd. destruct (Nat.eq_dec i j) as [<-|]; [right; eexists; reflexivity|].
      destruct (B o' y j Hy Ey) as [X|[k' X]]; [left; exact X|]. rewrite Eo in X. congruence.
    + intros j o' Hj. apply nth_upd_in in Hj. destruct Hj as [[<- Hj]|[N Hj]].
      * injection Hj as ->. split; [eexists; reflexivity|]. intros y Hy. exact (G i o y Hi Hy).
      * destruct (C j o' Hj) as [[k' X] _]. rewrite Eo in X. congruence.
    + exact D.
    + intros j o' y Hj Hy. apply nth_upd_in in Hj. destruct Hj as [[_ Hj]|[_ Hj]]; [discriminate|exact (G j o' y Hj Hy)].
  - split; [|discriminate]. apply (quiet s i (XWait o)); auto; discriminate.
  - congruence.
  - destruct (C i o Hi) as [[k Eo] No]. split; [|intros i' o' E; injection E as <- <-; exists k; exact Eo].
    rewrite Eo in A. destruct A as [A K]. unfold xinv. cbn [xos xab xobjs xthreads]. rewrite Eo.
    assert (O0 : owning i s = 1%nat) by (unfold owning; rewrite Hi; reflexivity). rewrite O0 in A.
    split; [|split; [|split; [|split; [|split]]]].
    + unfold owning, xput. cbn [xthreads]. rewrite nth_upd, Hi. destruct (Nat.eq_dec i i); [|congruence].
      pose proof (tally_upd (ownby i) (xobjs s) o x (XObj (Some i) 1) Hx) as T. rewrite (ownby_no i x (No x Hx)), (ownby_yes i (XObj (Some i) 1) eq_refl) in T. unfold xset. lia.
    + intros j E. destruct (L j E) as [k' X]. rewrite Eo in X. exists k'. exact X.
    + intros o' y j Hy Ey. apply nth_upd_in in Hy. destruct Hy as [[<- ->]|[_ Hy]]; [injection Ey as <-; right; exists k; reflexivity|].
      unfold xput. rewrite nth_upd. destruct (B o' y j Hy Ey) as [X|[k' X]]; [|right; exists k'; congruence]. destruct (Nat.eq_dec i j) as [<-|]; [congruence|left; exact X].
    + intros j o' Hj. apply nth_upd_in in Hj. destruct Hj as [[_ Hj]|[N Hj]]; [discriminate|]. destruct (C j o' Hj) as [[k' X] _]. congruence.
    + exact D.
    + intros j o' y Hj Hy. apply nth_upd_in in Hj. destruct Hj as [[_ Hj]|[N Hj]]; [discriminate|]. apply nth_upd_in in Hy. destruct Hy as [[<- ->]|[_ Hy]]; [cbn; congruence|exact (G j o' y Hj Hy)].
  - split; [exact V|discriminate].
  - split; [apply same_owner; assumption|discriminate].
  - split; [|discriminate]. destruct (B o x i Hx Ex) as [X|[k Eo]]; [congruence|]. rewrite Eo in A. destruct A as [A K]. unfold xinv. cbn [xos xab xobjs xthreads]. rewrite Eo. cbn [os_released].
    assert (O0 : owning i s = 0%nat) by (unfold owning; rewrite Hi; reflexivity). rewrite O0 in A.
    pose proof (tally_upd (ownby i) (xobjs s) o x (XObj None 0) Hx) as T. rewrite (ownby_yes i x Ex), (ownby_no i (XObj None 0)) in T by (cbn; discriminate).
    assert (Own : forall o' y j, nth_error (xset s o (XObj None 0)) o' = Some y -> xowner y = Some j -> nth_error (xthreads s) j = Some XEnded \/ (j = i /\ (0 < tally (ownby i) (xset s o (XObj None 0)))%nat)).
    { intros o' y j Hy Ey. pose proof (tally_in (ownby i) _ o' y Hy) as Ti. apply nth_upd_in in Hy. destruct Hy as [[<- ->]|[_ Hy]]; [discriminate|].
      destruct (B o' y j Hy Ey) as [X|[k' X]]; [left; exact X|]. right. rewrite Eo in X. injection X as <- _. split; [reflexivity|]. rewrite (ownby_yes i y Ey) in Ti. lia. }
    unfold xset in *. set (t := tally (ownby i) (upd (xobjs s) o (XObj None 0))) in *.
    split; [|split; [|split; [|split; [|split]]]].
    + destruct (N.eqb_spec k 1) as [->|Nk]; [exact I|]. cbn [xos xobjs]. unfold owning. cbn [xthreads xobjs]. rewrite Hi. fold t. lia.
    + intros j E. destruct (L j E) as [k' X]. rewrite Eo in X. injection X as <- <-. subst d. cbn [lostn] in A. rewrite Nat.eqb_refl in A.
      destruct (N.eqb_spec k 1) as [->|Nk]; [exfalso; change (N.to_nat 1) with 1%nat in A; lia|eexists; reflexivity].
    + intros o' y j Hy Ey. destruct (Own o' y j Hy Ey) as [X|[-> P]]; [left; exact X|]. right.
      destruct (N.eqb_spec k 1) as [->|Nk]; [exfalso; change (N.to_nat 1) with 1%nat in A; lia|eexists; reflexivity].
    + intros j o' Hj. destruct (C j o' Hj) as [[k' X] _]. rewrite Eo in X. congruence.
    + exact D.
    + intros j o' y Hj Hy. apply nth_upd_in in Hy. destruct Hy as [[<- ->]|[_ Hy]]; [cbn; discriminate|exact (G j o' y Hj Hy)].
Qed.

Definition xdepth (s : wmutex) (i o : nat) : N :=
  match nth_error (xobjs s) o with Some x => match xowner x with Some j => if Nat.eqb i j then xcount x else 0 | None => 0 end | None => 0 end.
Definition xdinv (s : wmutex) : Prop :=
  (forall o x i, nth_error (xobjs s) o = Some x -> xowner x = Some i -> 0 < xcount x < W32) /\ (forall i, nth_error (xthreads s) i <> Some XEnded).

Lemma xdepth_at s i o x : nth_error (xobjs s) o = Some x -> xdepth s i o = match xowner x with Some j => if Nat.eqb i j then xcount x else 0 | None => 0 end.
Proof. intro E. unfold xdepth. rewrite E. reflexivity. Qed.
Lemma xdepth_set s os ab ts o x y i p : nth_error (xobjs s) o = Some x ->
  xdepth (WMutex os ab (xset s o y) ts) i p = if Nat.eqb p o then match xowner y with Some j => if Nat.eqb i j then xcount y else 0 | None => 0 end else xdepth s i p.
Proof.
  intro E. unfold xdepth, xset. cbn [xobjs]. rewrite nth_upd. destruct (Nat.eq_dec o p) as [<-|N]; [rewrite E, Nat.eqb_refl; reflexivity|].
  destruct (Nat.eqb_spec p o); [congruence|reflexivity].
Qed.

Lemma minus_one c : 0 < c < W32 -> (c + W32 - 1) mod W32 = c - 1.
Proof. intro H. replace (c + W32 - 1) with (c - 1 + 1 * W32) by lia. rewrite N.mod_add by (unfold W32; lia). apply N.mod_small. lia. Qed.

Lemma xstep_depth s e s' : xstep false s e s' -> xinv None s -> xdinv s ->
  (forall i o, e = Some (MLocked i o) -> xdepth s i o + 1 < W32) ->
  xdinv s' /\ (forall i o, xdepth s' i o = match e with Some x => mx_depth1 (xdepth s i o) i o x | None => xdepth s i o end) /\
  (forall i o all, e = Some (MUnlocked i o all) -> 0 < xdepth s i o) /\ (forall i o, e = Some (MNotUnlocked i o) \/ e = Some (MNotLocked i o) -> xdepth s i o = 0).
Proof.
  intros St (A & L & B & C & D & G) (Cn & En) Sh.
  destruct St as [s i o x Hi Hx Ex|s i o x Hi Hx Ex|s i o Hi Eo Ea|s i o k Hi Eo|s i o Hi|s i o Hi Eo Ea|s i o x Hi Hx|s i o x Hi Hx Ex|s i o all x Hi Hx Ex Hc|s i o all x Hi Hx Ex Hc|s i Hi F ?|s i k Hi F ?|s i Hi F]; try discriminate F.
  - specialize (Sh i o eq_refl). rewrite (xdepth_at s i o x Hx), Ex, Nat.eqb_refl in Sh. pose proof (Cn o x i Hx Ex) as Cx.
    split; [|split; [|split]].
    + split; [|exact En]. cbn [xobjs]. intros o' y j Hy Ey. apply nth_upd_in in Hy. destruct Hy as [[<- ->]|[_ Hy]]; [|exact (Cn o' y j Hy Ey)].
      cbn [xcount]. rewrite N.mod_small by lia. lia.
    + intros j p. rewrite (xdepth_set s _ _ _ o x) by exact Hx. cbn [xowner xcount mx_depth1]. rewrite Ex, N.mod_small by lia.
      destruct (Nat.eqb_spec p o) as [->|]; [|rewrite andb_false_r; reflexivity]. rewrite andb_true_r, (xdepth_at s j o x Hx), Ex. destruct (Nat.eqb j i); reflexivity.
    + discriminate.
    + intros j p [E|E]; discriminate.
  - split; [|split; [|split]]; [split; [exact Cn|]| reflexivity|discriminate|intros j p [E|E]; discriminate].
    cbn [xthreads]. intros j Hj. apply nth_upd_in in Hj. destruct Hj as [[_ Hj]|[_ Hj]]; [discriminate|exact (En j Hj)].
  - split; [|split; [|split]]; [split; [exact Cn|]| reflexivity|discriminate|intros j p [E|E]; discriminate].
    cbn [xthreads]. intros j Hj. apply nth_upd_in in Hj. destruct Hj as [[_ Hj]|[_ Hj]]; [discriminate|exact (En j Hj)].
  - split; [|split; [|split]]; [split; [exact Cn|]| reflexivity|discriminate|intros j p [E|E]; discriminate].
    cbn [xthreads]. intros j Hj. apply nth_upd_in in Hj. destruct Hj as [[_ Hj]|[_ Hj]]; [discriminate|exact (En j Hj)].
  - split; [|split; [|split]]; [split; [exact Cn|]| reflexivity|discriminate|].
    + cbn [xthreads]. intros j Hj. apply nth_upd_in in Hj. destruct Hj as [[_ Hj]|[_ Hj]]; [discriminate|exact (En j Hj)].
    + intros j p [E|E]; [discriminate|]. injection E as <- <-. unfold xdepth. destruct (nth_error (xobjs s) o) as [x|] eqn:Hx; [|reflexivity].
      specialize (G i o x Hi Hx). destruct (xowner x) as [j|]; [|reflexivity]. destruct (Nat.eqb_spec i j) as [->|]; [congruence|reflexivity].
  - congruence.
  - destruct (C i o Hi) as [[k Eo] No]. assert (Nx : xowner x = None).
    { destruct (xowner x) as [j|] eqn:Ex; [|reflexivity]. exfalso. destruct (B o x j Hx Ex) as [X|[k' X]]; [exact (En j X)|]. rewrite Eo in X. injection X as <- _. exact (No x Hx Ex). }
    split; [|split; [|split]].
    + split; cbn [xobjs xthreads].
      * intros o' y j Hy Ey. apply nth_upd_in in Hy. destruct Hy as [[<- ->]|[_ Hy]]; [cbn; unfold W32; lia|exact (Cn o' y j Hy Ey)].
      * intros j Hj. apply nth_upd_in in Hj. destruct Hj as [[_ Hj]|[_ Hj]]; [discriminate|exact (En j Hj)].
    + intros j p. rewrite (xdepth_set s _ _ _ o x) by exact Hx. cbn [xowner xcount mx_depth1].
      destruct (Nat.eqb_spec p o) as [->|]; [|rewrite andb_false_r; reflexivity]. rewrite andb_true_r, (xdepth_at s j o x Hx), Nx. destruct (Nat.eqb j i); reflexivity.
    + discriminate.
    + intros j p [E|E]; discriminate.
  - split; [|split; [|split]]; [split; assumption|reflexivity|discriminate|].
    intros j p [E|E]; [|discriminate]. injection E as <- <-. rewrite (xdepth_at s i o x Hx). destruct (xowner x) as [j|]; [|reflexivity]. destruct (Nat.eqb_spec i j) as [->|]; [congruence|reflexivity].
  - pose proof (Cn o x i Hx Ex) as Cx. assert (Al : all = false /\ after_unlock all (xcount x) = xcount x - 1).
    { unfold after_unlock in *. destruct all; [exfalso; apply Hc; reflexivity|]. split; [reflexivity|exact (minus_one _ Cx)]. }
    destruct Al as [-> Al]. rewrite Al in *. split; [|split; [|split]].
    + split; [|exact En]. cbn [xobjs]. intros o' y j Hy Ey. apply nth_upd_in in Hy. destruct Hy as [[<- ->]|[_ Hy]]; [cbn [xcount]; lia|exact (Cn o' y j Hy Ey)].
    + intros j p. rewrite (xdepth_set s _ _ _ o x) by exact Hx. cbn [xowner xcount mx_depth1]. rewrite Ex.
      destruct (Nat.eqb_spec p o) as [->|]; [|rewrite andb_false_r; reflexivity]. rewrite andb_true_r, (xdepth_at s j o x Hx), Ex. destruct (Nat.eqb j i); reflexivity.
    + intros j p a E. injection E as <- <- <-. rewrite (xdepth_at s i o x Hx), Ex, Nat.eqb_refl. lia.
    + intros j p [E|E]; discriminate.
  - pose proof (Cn o x i Hx Ex) as Cx. assert (Al : all = true \/ xcount x = 1).
    { unfold after_unlock in Hc. destruct all; [left; reflexivity|right]. pose proof (minus_one _ Cx) as M. assert (Hm : (xcount x + W32 - 1) mod W32 = 0) by exact Hc. rewrite Hm in M. lia. }
    split; [|split; [|split]].
    + split; [|exact En]. cbn [xobjs]. intros o' y j Hy Ey. apply nth_upd_in in Hy. destruct Hy as [[<- ->]|[_ Hy]]; [discriminate|exact (Cn o' y j Hy Ey)].
    + intros j p. rewrite (xdepth_set s _ _ _ o x) by exact Hx. cbn [xowner xcount mx_depth1].
      destruct (Nat.eqb_spec p o) as [->|]; [|rewrite andb_false_r; reflexivity]. rewrite andb_true_r, (xdepth_at s j o x Hx), Ex. destruct (Nat.eqb j i); [|reflexivity].
      destruct Al as [Al|Al]; rewrite Al; [reflexivity|]. destruct all; reflexivity.
    + intros j p a E. injection E as <- <- <-. rewrite (xdepth_at s i o x Hx), Ex, Nat.eqb_refl. lia.
    + intros j p [E|E]; discriminate.
Qed.

Lemma xinit_inv nobj n : xinv None (wmutex_init nobj n) /\ xdinv (wmutex_init nobj n) /\ forall i o, xdepth (wmutex_init nobj n) i o = 0.
Proof.
  assert (Ob : forall o x, nth_error (repeat (XObj None 0) nobj) o = Some x -> x = XObj None 0) by (intros o x E; apply nth_error_In in E; exact (repeat_spec _ _ _ E)).
  assert (Th : forall o x, nth_error (repeat XIdle n) o = Some x -> x = XIdle) by (intros o x E; apply nth_error_In in E; exact (repeat_spec _ _ _ E)).
  split; [|split].
  - unfold xinv. cbn. split; [exact I|]. split; [discriminate|]. split; [|split; [|split; [reflexivity|]]].
    + intros o x i E Ex. rewrite (Ob o x E) in Ex. discriminate.
    + intros i o E. apply Th in E. discriminate.
    + intros i o x E. apply Th in E. discriminate.
  - split; cbn.
    + intros o x i E Ex. rewrite (Ob o x E) in Ex. discriminate.
    + intros i E. apply Th in E. discriminate.
  - intros i o. unfold xdepth. cbn. destruct (nth_error (repeat (XObj None 0) nobj) o) as [x|] eqn:E; [|reflexivity]. rewrite (Ob o x E). reflexivity.
Qed.

Lemma shallow_app tr tr' : shallow (tr ++ tr') -> shallow tr.
Proof. intros H tr1 tr2 i o E. apply (H tr1 (tr2 ++ tr') i o). rewrite E, app_assoc. reflexivity. Qed.

Lemma xrun_inv nobj n tr s : xrun false (wmutex_init nobj n) tr s -> shallow tr ->
  xinv None s /\ xdinv s /\ forall i o, mx_depth tr i o = xdepth s i o.
Proof.
  remember (wmutex_init nobj n) as s0 eqn:E0. induction 1 as [s0|s0 tr s1 e s2 R IH St]; intro Sh.
  - subst s0. destruct (xinit_inv nobj n) as (V & W & Z). split; [exact V|]. split; [exact W|]. intros i o. rewrite Z. reflexivity.
  - destruct (IH E0 (shallow_app _ _ Sh)) as (V & W & Z). destruct (xstep_inv None s1 e s2 St V) as [V2 _].
    assert (Q : forall i o, e = Some (MLocked i o) -> xdepth s1 i o + 1 < W32).
    { intros i o ->. rewrite <- Z. specialize (Sh (tr ++ [MLocked i o]) [] i o ltac:(rewrite app_nil_r; reflexivity)). rewrite mx_depth_app in Sh. cbn [mx_depth1] in Sh. rewrite !Nat.eqb_refl in Sh. cbn [andb] in Sh. exact Sh. }
    destruct (xstep_depth s1 e s2 St V W Q) as (W2 & Z2 & _). split; [exact V2|]. split; [exact W2|].
    intros i o. rewrite Z2. destruct e as [x|]; [rewrite mx_depth_app, Z; reflexivity|rewrite app_nil_r; apply Z].
Qed.

(** No step after a lost mutex ends it. *)
Lemma xrun_lost s tr s' j : xrun false s tr s' -> xinv (Some j) s -> xinv (Some j) s' /\ forall i o, In (MLocked i o) tr -> i = j.
Proof.
  induction 1 as [s|s tr s1 e s2 R IH St]; intro V; [split; [exact V|intros i o []]|].
  destruct (IH V) as [V1 Q]. destruct (xstep_inv (Some j) s1 e s2 St V1) as [V2 E]. split; [exact V2|].
  intros i o I. apply in_app_iff in I. destruct I as [I|I]; [exact (Q i o I)|]. destruct e as [x|]; [|destruct I]. destruct I as [->|[]].
  destruct (E i o eq_refl) as [k Ek]. destruct V1 as (_ & L & _). destruct (L j eq_refl) as [k' Ek']. congruence.
Qed.

Lemma xrun_front ending s e s1 tr s2 : xstep ending s e s1 -> xrun ending s1 tr s2 -> xrun ending s (match e with Some x => [x] | None => [] end ++ tr) s2.
Proof.
  intros St R. induction R as [s1|s1 tr s3 e' s4 R IH St'].
  - rewrite app_nil_r. exact (xrun_step ending s [] s e s1 (xrun_nil ending s) St).
  - rewrite app_assoc. apply (xrun_step ending s _ s3 e' s4); [apply IH; exact St|exact St'].
Qed.
