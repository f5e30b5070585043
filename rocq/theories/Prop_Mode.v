(** C120: the kind and the numbers of mixed variables. *)
From Verif Require Import Base M_Mode S_Mode.
Open Scope Z_scope.

Section Proofs.
Variable D : Type.
Variable zero : D.
Notation nrun := (nrun D zero).

Lemma run_snoc p o : nrun (p ++ [o]) = nexec D zero (nrun p) o.
Proof. unfold M_Mode.nrun. now rewrite fold_left_app. Qed.

Lemma nset_eq (s : nat -> nvar D) x v : nset D s x v x = v.
Proof. unfold nset. now rewrite Nat.eqb_refl. Qed.
Lemma nset_ne (s : nat -> nvar D) x y v : y <> x -> nset D s x v y = s y.
Proof. intros H. unfold nset. now rewrite (proj2 (Nat.eqb_neq _ _) H). Qed.

Lemma n_copy_is v w text : n_copy D v w text = w.
Proof. unfold n_copy. destruct w; cbn. now destruct text. Qed.

Lemma exec_other s o x : ~ about D o x -> nexec D zero s o x = s x.
Proof.
  intros H. destruct o; cbn in *; try (apply nset_ne; exact H); auto.
  destruct (x0 =? y)%nat; auto. apply nset_ne. exact H.
Qed.
Lemma exec_from s o x y : from D o x y -> nexec D zero s o x = s y.
Proof.
  destruct o; cbn; try contradiction; intros [-> ->].
  - destruct (Nat.eqb_spec x0 y0) as [->|H]; auto. rewrite nset_eq. apply n_copy_is.
  - rewrite nset_eq. apply n_copy_is.
Qed.

(** A reading of the variable that only the operations in [P] change, each to [f] of it. *)
Lemma last_reads {A} (P : nop D -> Prop) (g : nvar D -> A) (f : option (nop D) -> A) :
  g (n_new D zero) = f None ->
  (forall s o x, about D o x -> P o -> g (nexec D zero s o x) = f (Some o)) ->
  (forall s o x, about D o x -> ~ P o -> (forall y, ~ from D o x y) -> o <> ORenew D x -> g (nexec D zero s o x) = g (s x)) ->
  forall p x r, last D P (rev p) x r -> g (nrun p x) = f r.
Proof.
  intros G0 G1 G2 p. induction p as [|o p IH] using rev_ind; intros x r H.
  - inversion H; subst. exact G0.
  - rewrite rev_unit in H. rewrite run_snoc. inversion H; subst.
    + apply G1; auto.
    + cbn. rewrite nset_eq. exact G0.
    + rewrite (exec_from _ _ _ y) by auto. auto.
    + rewrite G2 by auto. auto.
    + rewrite exec_other by auto. auto.
Qed.

Lemma last_exists (P : nop D -> Prop) : (forall o, P o \/ ~ P o) -> forall h x, exists r, last D P h x r.
Proof.
  intros dec h. induction h as [|o h IH]; intros x; [exists None; constructor|].
  assert (A : about D o x \/ ~ about D o x) by (destruct o; cbn; lia).
  destruct A as [A|A].
  2:{ destruct (IH x) as (r & H). exists r. now apply l_other. }
  destruct (dec o) as [Q|Q]; [exists (Some o); now apply l_here|].
  destruct o; cbn in A; subst; try (destruct (IH x0) as (r & H); exists r; apply l_past; cbn; auto; congruence).
  - destruct (IH y) as (r & H). exists r. apply (l_copy D P _ h x0 y); cbn; auto.
  - destruct (IH y) as (r & H). exists r. apply (l_copy D P _ h x0 y); cbn; auto.
  - exists None. apply l_new.
Qed.

Lemma to_int64_id z : - 2^63 <= z < 2^63 -> to_int64 z = z.
Proof.
  intros H. unfold to_int64. destruct (Z.ltb_spec (z mod 2^64) (2^63)) as [L|L].
  - destruct (Z_lt_le_dec z 0).
    + replace z with ((z + 2^64) + (-1) * 2^64) in L by lia. rewrite Z_mod_plus_full, Z.mod_small in L by lia. lia.
    + apply Z.mod_small. lia.
  - destruct (Z_lt_le_dec z 0).
    + replace z with ((z + 2^64) + (-1) * 2^64) at 1 by lia. rewrite Z_mod_plus_full, Z.mod_small by lia. lia.
    + rewrite Z.mod_small in L by lia. lia.
Qed.
Lemma to_uint64_int z : to_uint64 (to_int64 z) = z mod 2^64.
Proof.
  unfold to_uint64, to_int64. destruct (z mod 2^64 <? 2^63).
  - apply Z.mod_mod. lia.
  - replace (z mod 2^64 - 2^64) with (z mod 2^64 + (-1) * 2^64) by lia. rewrite Z_mod_plus_full. apply Z.mod_mod. lia.
Qed.
Lemma to_int64_zero z : - 2^63 <= z < 2^64 -> (to_int64 z = 0 <-> z = 0).
Proof.
  intros H. split; [|intros ->; reflexivity]. intros E. assert (M : z mod 2^64 = 0).
  { rewrite <- to_uint64_int, E. reflexivity. }
  apply Z.mod_divide in M; [|lia]. destruct M as [q M]. lia.
Qed.

Ltac cases o := destruct o; cbn in *; subst; try contradiction; try tauto; rewrite ?nset_eq; try reflexivity.

Lemma kind_reads p x r : last D (sets_kind D) (rev p) x r -> nmode D (nrun p x) = kind_of D r.
Proof.
  apply (last_reads (sets_kind D) (nmode D) (kind_of D)); auto.
  - intros s o y A H. cases o.
  - intros s o y A N F R. cases o; exfalso; eapply F; split; reflexivity || eauto.
Qed.
Lemma int_reads p x r : Forall (in_range D) p -> last D (sets_int D) (rev p) x r ->
  nint D (nrun p x) = to_int64 (int_of D r) /\ - 2^63 <= int_of D r < 2^64.
Proof.
  intros R. revert x r. induction p as [|o p IH] using rev_ind; intros x r H.
  - inversion H; subst. cbn. split; [reflexivity|lia].
  - apply Forall_app in R. destruct R as [R1 R2]. apply Forall_inv in R2. specialize (IH R1).
    rewrite rev_unit in H. rewrite run_snoc. inversion H; subst.
    + destruct o; cbn in *; try contradiction; subst; rewrite nset_eq; cbn; split; try lia.
      * now destruct b.
      * destruct b; lia.
      * symmetry. apply to_int64_id. lia.
    + cbn. rewrite nset_eq. cbn. split; [reflexivity|lia].
    + rewrite (exec_from _ _ _ y) by auto. auto.
    + destruct (IH x r) as [I1 I2]; auto. rewrite <- I1. split; auto.
      destruct o; cbn in *; subst; try tauto; rewrite ?nset_eq; try reflexivity; try congruence.
      all: exfalso; match goal with K : forall z, ~ (_ = _ /\ z = ?y) |- _ => apply (K y); auto end.
    + rewrite exec_other by auto. auto.
Qed.
Lemma double_reads p x r : last D (sets_double D) (rev p) x r -> ndbl D (nrun p x) = double_of D zero r.
Proof.
  apply (last_reads (sets_double D) (ndbl D) (double_of D zero)); auto.
  - intros s o y A H. cases o.
  - intros s o y A N F R. cases o; exfalso; eapply F; split; reflexivity || eauto.
Qed.
End Proofs.

(** For every program on any number of variables: the kind is that of the last operation that
    stored a whole value (SetBool, SetInt, SetUInt, SetDouble, SetStr, SetData, SetUTF8),
    followed through copies and assignments; exactly one of the six questions is answered with
    yes. *)
Theorem C120_kind : forall D zero p x r m, last D (sets_kind D) (rev p) x r ->
  (IsMode D (nrun D zero p x) m = true <-> m = kind_of D r).
Proof.
  intros D zero p x r m H. unfold IsMode. rewrite (kind_reads D zero p x r H).
  destruct (kind_of D r), m; split; intros E; reflexivity || discriminate.
Qed.

(** The integer is the last one stored by SetBool, SetInt or SetUInt, whatever was done to the
    text or the floating-point number since.  GetInt gives it exactly when it fits; GetUInt
    gives it modulo 2^64; GetBool says whether it is not zero. *)
Theorem C120_integers : forall D zero p x r, Forall (in_range D) p -> last D (sets_int D) (rev p) x r ->
  let v := nrun D zero p x in let z := int_of D r in
  - 2^63 <= GetInt D v < 2^63 /\ (GetInt D v - z) mod 2^64 = 0 /\ (z < 2^63 -> GetInt D v = z) /\
  GetUInt D v = z mod 2^64 /\ (GetBool D v = true <-> z <> 0).
Proof.
  intros D zero p x r R H v z. destruct (int_reads D zero p x r R H) as [E B]. fold v in E. fold z in E, B.
  unfold GetInt, GetUInt, GetBool. rewrite E.
  assert (M : 0 <= z mod 2^64 < 2^64) by (apply Z.mod_pos_bound; lia).
  split. { unfold to_int64. destruct (Z.ltb_spec (z mod 2^64) (2^63)); lia. }
  split.
  { rewrite Zminus_mod. replace (to_int64 z mod 2^64) with (z mod 2^64) by (symmetry; apply to_uint64_int).
    now rewrite Z.sub_diag. }
  split. { intros L. apply to_int64_id. lia. }
  split. { apply to_uint64_int. }
  pose proof (to_int64_zero z B) as Q. destruct (Z.eqb_spec (to_int64 z) 0); cbn [negb]; split; intros; try discriminate; tauto.
Qed.

(** The floating-point number is the last one stored by SetDouble. *)
Theorem C120_double : forall D zero p x r, last D (sets_double D) (rev p) x r ->
  GetDouble D (nrun D zero p x) = double_of D zero r.
Proof. intros. now apply double_reads. Qed.

(** That last operation exists for every program and variable. *)
Theorem C120_determined : forall D h x,
  (exists r, last D (sets_kind D) h x r) /\ (exists r, last D (sets_int D) h x r) /\ (exists r, last D (sets_double D) h x r).
Proof.
  intros D h x. split; [|split]; apply last_exists; intros o; destruct o; cbn; tauto.
Qed.

(** REFUTED for text that is built up: appending, prepending or replacing is not a store.
    Unless the variable was a string before, it is not one after any number of them. *)
Theorem C120_built_text_refuted : forall D zero p x r k,
  last D (sets_kind D) (rev p) x r -> kind_of D r <> MStr ->
  IsMode D (nrun D zero (p ++ repeat (OEditText D x) (S k)) x) MStr = false.
Proof.
  intros D zero p x r k H N.
  assert (E : nrun D zero (p ++ repeat (OEditText D x) (S k)) = nrun D zero p).
  { unfold nrun. rewrite fold_left_app. induction (S k); cbn; auto. }
  rewrite E. destruct (IsMode D (nrun D zero p x) MStr) eqn:Q; auto.
  apply (C120_kind D zero p x r MStr H) in Q. congruence.
Qed.

(** A variable that only had text appended has no kind; a number that had text appended is
    still a number; -1 read as unsigned; the integer survives SetDouble. *)
Example C120_ex :
  let s := nrun nat 0%nat [OEditText _ 0; OInt _ 1 (-1); OEditText _ 1; OCopy _ 2 1 true; ODouble _ 1 7%nat; OUInt _ 3 (2^64 - 5); OSetText _ 3] in
  IsMode _ (s 0%nat) MNone = true /\ IsMode _ (s 0%nat) MStr = false /\
  IsMode _ (s 1%nat) MDouble = true /\ GetInt _ (s 1%nat) = -1 /\ GetDouble _ (s 1%nat) = 7%nat /\
  IsMode _ (s 2%nat) MInt = true /\ GetUInt _ (s 2%nat) = 2^64 - 1 /\ GetDouble _ (s 2%nat) = 0%nat /\
  IsMode _ (s 3%nat) MStr = true /\ GetInt _ (s 3%nat) = -5 /\ GetUInt _ (s 3%nat) = 2^64 - 5.
Proof. vm_compute. repeat split; reflexivity. Qed.

Print Assumptions C120_kind.
Print Assumptions C120_integers.
Print Assumptions C120_double.
Print Assumptions C120_determined.
Print Assumptions C120_built_text_refuted.
