(** Proofs about opening named objects. *)
From Verif Require Import Base S_Named M_Named P_Sem.
Open Scope N_scope.

Definition b2n (b : bool) : nat := if b then 1%nat else O.
Definition active (p : npc) : nat := match p with NIdle => O | _ => 1%nat end.
Definition early (p : npc) : nat := match p with NNew | NMake => 1%nat | _ => O end.
Definition mid (p : npc) : nat := match p with NMake2 | NInit true | NReady true => 1%nat | _ => O end.
Definition late (p : npc) : nat := match p with NLock | NLocked | NUnlock _ | NOpen | NClose | NClosing => 1%nat | _ => O end.
Definition past (p : npc) : nat := match p with NLocked | NUnlock _ | NOpen | NClose | NClosing => 1%nat | _ => O end.
Definition holds (p : npc) : nat := match p with NMake | NMake2 | NInit true | NReady true | NLocked | NUnlock _ | NClosing => 1%nat | _ => O end.
Definition stale (p : npc) : nat := match p with NInit false | NReady false | NUnlock true => 1%nat | _ => O end.
Definition counted (p : npc) : nat := match p with NInit _ | NReady _ | NUnlock _ | NOpen | NClose | NClosing => 1%nat | _ => O end.
Definition isopen (p : npc) : nat := match p with NOpen => 1%nat | _ => O end.
Definition preinit (p : npc) : nat := match p with NNew | NMake | NMake2 | NInit true => 1%nat | _ => O end.

Definition isnew (p : npc) : nat := match p with NNew => 1%nat | _ => O end.
Definition ismake (p : npc) : nat := match p with NMake2 => 1%nat | _ => O end.
Definition isready (p : npc) : nat := match p with NReady true => 1%nat | _ => O end.
Definition islocked (p : npc) : nat := match p with NLocked => 1%nat | _ => O end.

Definition inits (tr : list nm_event) : nat := tally (fun e => match e with NInited _ => 1%nat | _ => O end) tr.

Lemma tally_le (f g : npc -> nat) l : (forall p, f p <= g p)%nat -> (tally f l <= tally g l)%nat.
Proof. intro H. induction l as [|p l IH]; [cbn; lia|]. cbn [tally fold_right]. fold (tally f l) (tally g l). specialize (H p). lia. Qed.
Lemma tally_app {A} (f : A -> nat) a b : tally f (a ++ b) = (tally f a + tally f b)%nat.
Proof. induction a as [|x a IH]; [reflexivity|]. cbn [app tally fold_right]. fold (tally f (a ++ b)) (tally f a). lia. Qed.

Lemma inits_app a x : inits (a ++ [x]) = (inits a + match x with NInited _ => 1 | _ => 0 end)%nat.
Proof. unfold inits. rewrite tally_app. cbn [tally fold_right]. destruct x; lia. Qed.
Lemma opens_app a x : opens (a ++ [x]) = match x with NReturned _ => opens a + 1 | NClosed _ => opens a - 1 | _ => opens a end.
Proof. unfold opens. rewrite fold_left_app. destruct x; reflexivity. Qed.
Lemma returned_app a x : returned (a ++ [x]) = match x with NReturned _ => true | _ => returned a end.
Proof. unfold returned. rewrite existsb_app. destruct x; cbn; rewrite ?orb_true_r, ?orb_false_r; reflexivity. Qed.
Lemma proper_app d a x : proper d (a ++ [x]) = proper d a && match x with
  | NInited _ => Nat.eqb (b2n d + inits a) 0 | NReturned _ => negb (Nat.eqb (b2n d + inits a) 0) | NClosed _ => true | NUndefined _ => false end.
Proof.
  revert d. induction a as [|y a IH]; intro d; cbn [app proper].
  - destruct x; destruct d; reflexivity.
  - destruct y; cbn [inits tally fold_right]; fold (inits a); rewrite ?IH; destruct d; cbn [negb andb b2n]; try reflexivity; destruct x; try reflexivity; rewrite ?andb_true_r; try reflexivity.
Qed.

Record ninv (tr : list nm_event) (s : named) : Prop := NInv {
  i_idle : made s = false -> tally active (procs s) = O;
  i_one : (tally early (procs s) + tally mid (procs s) <= b2n (made s))%nat;
  i_status : (b2n (status s) + tally early (procs s) + (1 - b2n (made s)) = 1)%nat;
  i_late : status s = false -> tally late (procs s) = O;
  i_past : (0 < tally mid (procs s))%nat -> tally past (procs s) = O;
  i_held : tally holds (procs s) = match nmtx s with Some _ => 1%nat | None => O end;
  i_holder : forall i p, nth_error (procs s) i = Some p -> (0 < holds p)%nat -> nmtx s = Some i;
  i_stale : tally stale (procs s) = O;
  i_ref : ref s = N.of_nat (tally counted (procs s));
  i_opens : opens tr = N.of_nat (tally isopen (procs s));
  i_inits : (inits tr + tally preinit (procs s) + (1 - b2n (made s)) = 1)%nat;
  i_returned : returned tr = true <-> (made s = true /\ tally early (procs s) + tally mid (procs s) = 0)%nat;
  i_contents : made s = true -> contents s = negb (Nat.eqb (inits tr) 0);
  i_proper : proper false tr = true }.

Definition nseen (e : option nm_event) : list nm_event := match e with Some x => [x] | None => [] end.

Lemma holder_upd s i p q m : (forall j r, nth_error (procs s) j = Some r -> (0 < holds r)%nat -> nmtx s = Some j) ->
  nth_error (procs s) i = Some p -> (forall j r, i <> j -> nth_error (procs s) j = Some r -> (0 < holds r)%nat -> m = nmtx s) -> ((0 < holds q)%nat -> m = Some i) ->
  forall j r, nth_error (upd (procs s) i q) j = Some r -> (0 < holds r)%nat -> m = Some j.
Proof.
  intros H E K L j r F P. apply nth_upd_in in F. destruct F as [[-> ->]|[N F]]; [exact (L P)|]. rewrite (K j r N F P). exact (H j r F P).
Qed.


Lemma first_ref tr s i : (returned tr = true -> 0 < opens tr) -> ninv tr s -> nth_error (procs s) i = Some NLocked -> ref s <> 0.
Proof.
  intros K I E. destruct I as [I1 I2 I3 I4 I5 I6 I7 I8 I9 I10 I11 I12 I13 I14].
  pose proof (tally_in late _ _ _ E) as L. pose proof (tally_in past _ _ _ E) as Q. cbn [late past] in L, Q.
  assert (LE3 : (tally isopen (procs s) <= tally counted (procs s))%nat) by (apply tally_le; intros [| | | | [] | [] | | | | | | |]; cbn; lia).
  assert (M : tally mid (procs s) = O) by (destruct (tally mid (procs s)); [reflexivity|]; rewrite I5 in Q by lia; lia).
  destruct (status s); [|rewrite I4 in L by reflexivity; lia]. cbn [b2n] in I3.
  assert (R : returned tr = true) by (apply I12; destruct (made s); cbn [b2n] in I3; [split; [reflexivity|]; lia|lia]).
  specialize (K R). lia.
Qed.
Lemma not_stale tr s i p : ninv tr s -> nth_error (procs s) i = Some p -> stale p = O.
Proof. intros I E. pose proof (tally_in stale _ _ _ E). rewrite (i_stale _ _ I) in H. lia. Qed.

Ltac facts s i p q E :=
  let f g := (pose proof (tally_upd g (procs s) i p q E); pose proof (tally_in g (procs s) i p E)) in
  f active; f early; f mid; f late; f past; f holds; f stale; f counted; f isopen; f preinit; f isnew; f ismake; f islocked; f isready.
Ltac drop f := repeat match goal with H : context [tally f _] |- _ => clear H end.

Lemma nstep_inv n tr s e s' : N.of_nat n < W32 -> length (procs s) = n -> (returned tr = true -> 0 < opens tr) -> ninv tr s -> nstep s e s' -> ninv (tr ++ nseen e) s'.
Proof.
  intros W L K I S. pose proof (first_ref tr s) as FR. pose proof (not_stale tr s) as NS.
  assert (B : (tally counted (procs s) + tally islocked (procs s) <= n)%nat).
  { subst n. clear. induction (procs s) as [|p l IH]; [cbn; lia|]. cbn [tally fold_right length]. fold (tally counted l) (tally islocked l). destruct p; cbn [counted islocked]; lia. }
  assert (LE10 : (tally counted (procs s) + tally ismake (procs s) <= tally past (procs s) + tally mid (procs s) + tally stale (procs s))%nat).
  { clear. induction (procs s) as [|p l IH]; [cbn; lia|]. cbn [tally fold_right]. fold (tally counted l) (tally ismake l) (tally past l) (tally mid l) (tally stale l). destruct p as [| | | | [] | [] | | | | | | |]; cbn [past mid counted ismake stale]; lia. }
  assert (LE1 : (tally past (procs s) <= tally late (procs s))%nat) by (apply tally_le; intros [| | | | [] | [] | | | | | | |]; cbn; lia).
  assert (LE2 : (tally preinit (procs s) + tally isready (procs s) <= tally early (procs s) + tally mid (procs s))%nat).
  { clear. induction (procs s) as [|p l IH]; [cbn; lia|]. cbn [tally fold_right]. fold (tally preinit l) (tally isready l) (tally early l) (tally mid l). destruct p as [| | | | [] | [] | | | | | | |]; cbn [preinit isready early mid]; lia. }
  assert (LE4 : (tally mid (procs s) <= tally holds (procs s))%nat) by (apply tally_le; intros [| | | | [] | [] | | | | | | |]; cbn; lia).
  assert (LE5 : (tally holds (procs s) + tally isnew (procs s) <= tally early (procs s) + tally mid (procs s) + tally late (procs s))%nat).
  { clear. induction (procs s) as [|p l IH]; [cbn; lia|]. cbn [tally fold_right]. fold (tally holds l) (tally early l) (tally mid l) (tally isnew l) (tally late l). destruct p as [| | | | [] | [] | | | | | | |]; cbn [holds early mid late isnew]; lia. }
  assert (LE6 : (tally past (procs s) + tally early (procs s) + tally mid (procs s) <= tally active (procs s))%nat).
  { clear. induction (procs s) as [|p l IH]; [cbn; lia|]. cbn [tally fold_right]. fold (tally past l) (tally early l) (tally mid l) (tally active l). destruct p as [| | | | [] | [] | | | | | | |]; cbn [past early mid active]; lia. }
  assert (LE7 : (tally holds (procs s) <= tally active (procs s))%nat) by (apply tally_le; intros [| | | | [] | [] | | | | | | |]; cbn; lia).
  assert (LE8 : (tally counted (procs s) <= tally active (procs s))%nat) by (apply tally_le; intros [| | | | [] | [] | | | | | | |]; cbn; lia).
  assert (LE9 : (tally isopen (procs s) <= tally counted (procs s))%nat) by (apply tally_le; intros [| | | | [] | [] | | | | | | |]; cbn; lia).
  destruct S; unfold nput; try (destruct f);
    match goal with
    | E : nth_error (procs s) ?i = Some NLocked, Z : ref s = 0 |- _ => exfalso; exact (FR i K I E Z)
    | E : nth_error (procs s) ?i = Some ?p |- _ => assert_fails (assert (stale p = O) by reflexivity); exfalso; discriminate (NS i p I E)
    | _ => idtac
    end; clear FR NS;
    match goal with
    | E : nth_error (procs s) ?i = Some (NReady true), Z : nmtx s <> Some ?i |- _ => exfalso; apply Z; apply (i_holder _ _ I) with (1 := E); cbn; lia
    | E : nth_error (procs s) ?i = Some ?p |- context [upd (procs s) ?i ?q] => facts s i p q E
    end.
  all: destruct I as [I1 I2 I3 I4 I5 I6 I7 I8 I9 I10 I11 I12 I13 I14].
  all: assert (HU : forall i p q m, nth_error (procs s) i = Some p -> (forall j r, i <> j -> nth_error (procs s) j = Some r -> (0 < holds r)%nat -> m = nmtx s) -> ((0 < holds q)%nat -> m = Some i) ->
    forall j r, nth_error (upd (procs s) i q) j = Some r -> (0 < holds r)%nat -> m = Some j) by (intros ? ? ? ? ? ? ?; eapply holder_upd; eassumption).
  all: assert (T2 := tally_two holds (procs s)).
  all: cbn [active early mid late past holds stale counted isopen preinit isnew ismake islocked isready] in *.
  all: match goal with H : nth_error ?l ?i = Some ?p |- context [upd ?l ?i ?q] => specialize (HU i p q); specialize (fun j b => T2 i j p b H); pose proof (I7 i p H) as I7' end.
  all: match goal with |- ninv _ (Named _ _ ?m _ _ (upd ?l ?i ?q)) => assert (I7n : forall j r, nth_error (upd l i q) j = Some r -> (0 < holds r)%nat -> m = Some j);
    [ try solve [ apply HU; [assumption|
        intros j r N F P; first [reflexivity | exfalso; pose proof (T2 _ _ F N) as T2j; cbn [holds] in T2j; pose proof (I7 _ _ F P) as I7j; rewrite I7j in I6; first [lia|congruence|
          destruct (made s), (status s); cbn [b2n] in *; try rewrite I1 in * by reflexivity; try rewrite I4 in * by reflexivity; lia] ]
        | cbn [holds]; intro; first [reflexivity|lia|apply I7'; cbn; lia] ] ] | ] end.
  all: match goal with |- ninv _ _ => clear HU T2 I7 I7' | _ => idtac end.
  all: assert (I5' : tally mid (procs s) = O \/ tally past (procs s) = O) by (destruct (tally mid (procs s)); [left; reflexivity|right; apply I5; apply Nat.lt_0_succ]).
  all: assert (I12' : (if returned tr then (made s = true /\ tally early (procs s) + tally mid (procs s) = 0) else (made s = true -> tally early (procs s) + tally mid (procs s) <> 0))%nat)
    by (destruct (returned tr); [apply I12; reflexivity|intros M Z; assert (X : false = true) by (apply I12; auto); discriminate X]).
  all: clear I5 I12 K.
  all: destruct (made s) eqn:Em, (status s) eqn:Es; cbn [b2n] in *; try discriminate.
  all: try (pose proof (I1 eq_refl) as J1). all: try (pose proof (I4 eq_refl) as J4). all: clear I1 I4.
  all: try (exfalso; drop counted; drop ismake; drop islocked; drop isopen; drop preinit; drop stale; drop holds; drop isnew; clear I12' I13; lia).
  all: destruct (returned tr) eqn:Er; [destruct I12' as [I12c I12']; try discriminate I12c|try specialize (I12' eq_refl)].
  all: try (exfalso; drop counted; drop ismake; drop islocked; drop isopen; drop preinit; drop stale; drop holds; drop isnew; drop active; clear I13; lia).
  all: constructor; cbn [made status nmtx ref contents procs nseen] in *; rewrite ?app_nil_r, ?opens_app, ?returned_app, ?proper_app, ?inits_app; cbn match.
  all: repeat match goal with H : nth_error _ _ = _ |- _ => clear H end.
  all: try assumption. all: try (intros; discriminate).
  all: cbn [b2n] in *.
  all: match goal with
    | |- (tally early _ + tally mid _ <= _)%nat => drop counted; drop ismake; drop islocked; drop isopen; drop preinit; drop stale; drop holds; drop isnew; drop late; drop past; clear I13; lia
    | |- (_ + tally early _ + _ = _)%nat => drop counted; drop ismake; drop islocked; drop isopen; drop preinit; drop stale; drop holds; drop isnew; drop late; drop past; clear I13; lia
    | |- _ -> tally late _ = _ => intros _; drop counted; drop ismake; drop islocked; drop isopen; drop preinit; drop stale; drop holds; drop isnew; clear I13; lia
    | |- _ -> tally past _ = _ => intro; drop counted; drop ismake; drop islocked; drop isopen; drop preinit; drop stale; drop isnew; clear I13; try rewrite ?H in *; lia
    | |- tally stale _ = _ => drop counted; drop isopen; drop preinit; drop isnew; drop holds; lia
    | _ => idtac
    end.
  all: match goal with
    | |- tally holds _ = _ => drop counted; drop isopen; drop preinit; try rewrite I6 in *; repeat match goal with H : nmtx _ = _ |- _ => rewrite H in * end; try lia; destruct (nmtx s); lia
    | |- _ = N.of_nat (tally isopen _) => drop preinit; drop isnew; drop late; drop holds; drop stale; lia
    | |- (_ + tally preinit _ + _ = _)%nat => drop counted; drop isopen; drop isnew; drop late; drop holds; drop stale; lia
    | |- _ = true <-> _ => drop counted; drop isopen; drop isnew; drop holds; drop stale; split; [intro; try discriminate; split; [reflexivity|lia]|intros [_ ?]; first [reflexivity|exact Er|exfalso; lia]]
    | _ => idtac
    end.
  all: try (intros _; first [exact (I13 eq_refl)|rewrite Nat.add_0_r; exact (I13 eq_refl)|symmetry; apply negb_true_iff, Nat.eqb_neq; lia|symmetry; apply negb_false_iff, Nat.eqb_eq; lia]).
  all: try (rewrite I14; cbn [andb]; first [reflexivity|apply Nat.eqb_eq; lia|apply negb_true_iff, Nat.eqb_neq; lia]).
  all: match goal with
    | |- _ = N.of_nat (tally counted _) => drop preinit; drop isnew; drop holds; rewrite ?N.mod_small by lia; lia
    | _ => idtac
    end.
  all: match goal with Z : nmtx _ = None |- _ => rewrite Z in I6; lia | _ => idtac end.
Qed.

Lemma nstep_length s e s' : nstep s e s' -> length (procs s') = length (procs s).
Proof. intros []; cbn [procs]; unfold nput; try apply upd_length; reflexivity. Qed.

Lemma kept_front tr x : kept (tr ++ x) -> kept tr.
Proof. intros K a b E. apply (K a (b ++ x)). rewrite E, <- app_assoc. reflexivity. Qed.

Lemma init_ninv n : ninv [] (named_init n).
Proof.
  assert (Z : forall f : npc -> nat, f NIdle = O -> tally f (repeat NIdle n) = O).
  { intros f H. induction n as [|m IH]; [reflexivity|]. cbn [repeat tally fold_right]. fold (tally f (repeat NIdle m)). lia. }
  constructor; unfold named_init; cbn [made status nmtx ref contents procs]; rewrite ?Z by reflexivity; try reflexivity; try (cbn; lia).
  intros i p E H. apply nth_error_In, repeat_spec in E. subst p. cbn in H. lia.
Qed.

Lemma nrun_inv n tr s : N.of_nat n < W32 -> nrun (named_init n) tr s -> kept tr -> ninv tr s /\ length (procs s) = n.
Proof.
  intros W R. remember (named_init n) as s0 eqn:E0. induction R as [s|s tr s1 e s2 R IH S]; intro K.
  - subst s. split; [apply init_ninv|]. apply repeat_length.
  - destruct (IH E0 (kept_front _ _ K)) as [I L]. split; [|rewrite (nstep_length _ _ _ S); exact L].
    apply (nstep_inv n tr s1 e s2 W L); [|exact I|exact S]. intro T. exact (kept_front _ _ K tr [] (eq_sym (app_nil_r _)) T).
Qed.
