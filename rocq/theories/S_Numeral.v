(** Specification of positional numerals, independent of any code. *)
From Verif Require Import Base.
Open Scope N_scope.

(** Value of a digit list, most significant digit first. *)
Definition value (r : N) (ds : list N) : N := fold_left (fun a d => a * r + d) ds 0.

(** [ds] is the canonical numeral of [n] in radix [r]: digits below the radix,
    not empty, no leading zero except for zero itself. *)
Definition is_numeral (r n : N) (ds : list N) : Prop :=
  ds <> [] /\ Forall (fun d => d < r) ds /\ (hd 0 ds = 0 -> ds = [0]) /\ value r ds = n.

(** The glyph of a digit: 0-9 then A-Z. *)
Definition glyphs : list N :=
  [48;49;50;51;52;53;54;55;56;57;
   65;66;67;68;69;70;71;72;73;74;75;76;77;78;79;80;81;82;83;84;85;86;87;88;89;90].
Definition glyph (d : N) : N := nth (N.to_nat d) glyphs 0.

(** Put [sep] in front of every group of three symbols counted from the right,
    except at the very start. *)
Fixpoint group3 (sep : N) (ds : list N) : list N :=
  match ds with
  | [] => []
  | d :: rest =>
      match rest with
      | [] => [d]
      | _ => if (length rest mod 3 =? 0)%nat then d :: sep :: group3 sep rest
             else d :: group3 sep rest
      end
  end.

(** The text of a numeral with separator [sep] (0 = none). *)
Definition numeral_text (sep : N) (ds : list N) : list N :=
  if sep =? 0 then map glyph ds else group3 sep (map glyph ds).

(** ** Sanity of the specification: existence, uniqueness, shape. *)

(** Least-significant-first digits of a number, as a relation. *)
Inductive lsd (r : N) : N -> list N -> Prop :=
| lsd_nil : lsd r 0 []
| lsd_cons n ds : n <> 0 -> lsd r (n / r) ds -> lsd r n (n mod r :: ds).

Lemma lsd_exists r n : 2 <= r -> exists ds, lsd r n ds.
Proof.
  intros Hr. induction n as [n IH] using (well_founded_induction N.lt_wf_0).
  destruct (N.eq_dec n 0) as [->|Hn].
  - exists []. constructor.
  - destruct (IH (n / r)) as [ds Hds].
    { apply N.div_lt; lia. }
    exists (n mod r :: ds). now constructor.
Qed.

Lemma lsd_fun r n ds ds' : lsd r n ds -> lsd r n ds' -> ds = ds'.
Proof.
  intros H. revert ds'. induction H as [|n ds Hn H IH]; intros ds' H'.
  - inversion H'; congruence.
  - inversion H'; subst; [congruence|]. f_equal. now apply IH.
Qed.

Lemma value_app r a b : value r (a ++ b) = fold_left (fun a d => a * r + d) b (value r a).
Proof. unfold value. now rewrite fold_left_app. Qed.

Lemma value_snoc r a d : value r (a ++ [d]) = value r a * r + d.
Proof. now rewrite value_app. Qed.

Lemma lsd_numeral r n ds : 2 <= r -> n <> 0 -> lsd r n ds -> is_numeral r n (rev ds).
Proof.
  intros Hr Hn H.
  assert (Hv : Forall (fun d => d < r) ds /\ value r (rev ds) = n /\
               (n <> 0 -> ds <> [] /\ hd 0 (rev ds) <> 0)).
  { clear Hn. induction H as [|n ds Hn H (Hf & Hval & Hhd)].
    - cbn. repeat split; auto. all: congruence.
    - split; [|split].
      + constructor; auto. apply N.mod_lt; lia.
      + cbn [rev]. rewrite value_snoc, Hval. rewrite (N.div_mod n r) at 3; lia.
      + intros _. split; [discriminate|]. cbn [rev].
        destruct (N.eq_dec (n / r) 0) as [E|E].
        * assert (ds = []) as ->. { rewrite E in H. inversion H; congruence. }
          cbn. assert (n < r) by (apply N.div_small_iff; lia).
          rewrite N.mod_small; auto.
        * destruct (Hhd E) as [Hne Hh].
          destruct (rev ds) eqn:Er; [|cbn; auto].
          apply (f_equal (@rev N)) in Er. rewrite rev_involutive in Er. cbn in Er. congruence. }
  destruct Hv as (Hf & Hval & Hhd). destruct (Hhd Hn) as [Hne Hh].
  repeat split; auto.
  - intros E. apply (f_equal (@rev N)) in E. rewrite rev_involutive in E. cbn in E. congruence.
  - apply Forall_rev; auto.
  - intros E; congruence.
Qed.

Lemma numeral_exists r n : 2 <= r -> exists ds, is_numeral r n ds.
Proof.
  intros Hr. destruct (N.eq_dec n 0) as [->|Hn].
  - exists [0]. repeat split; auto; try discriminate. constructor; [lia|auto].
  - destruct (lsd_exists r n Hr) as [ds Hds]. exists (rev ds). now apply lsd_numeral.
Qed.

Lemma value_lower r ds a :
  2 <= r -> a <> 0 ->
  a * r ^ N.of_nat (length ds) <= fold_left (fun a d => a * r + d) ds a.
Proof.
  intros Hr. revert a. induction ds as [|d ds IH]; intros a Ha.
  - cbn [length fold_left]. rewrite N.pow_0_r. lia.
  - cbn [fold_left]. eapply N.le_trans; [|apply IH; nia].
    cbn [length]. rewrite Nat2N.inj_succ, N.pow_succ_r'. nia.
Qed.

Lemma numeral_rev_lsd r n ds : 2 <= r -> n <> 0 -> is_numeral r n ds -> lsd r n (rev ds).
Proof.
  intros Hr. revert n. induction ds as [|d ds IH] using rev_ind; intros n Hn (Hne & Hf & Hh & Hv).
  - congruence.
  - rewrite value_snoc in Hv. apply Forall_app in Hf as [Hf Hd]. inversion Hd; subst.
    rewrite rev_app_distr. cbn.
    assert (Hq : (value r ds * r + d) / r = value r ds).
    { rewrite N.add_comm, N.div_add by lia. rewrite N.div_small by auto. lia. }
    assert (Hm : (value r ds * r + d) mod r = d).
    { rewrite N.add_comm, N.mod_add by lia. now apply N.mod_small. }
    rewrite <- Hm at 2. constructor; auto. rewrite Hq.
    destruct ds as [|d0 ds].
    + cbn. constructor.
    + assert (d0 <> 0).
      { intros ->. cbn in Hh. specialize (Hh eq_refl). destruct ds; discriminate. }
      apply IH.
      * cbn. pose proof (value_lower r ds d0 Hr ltac:(auto)) as HL.
        change (fold_left (fun a d1 => a * r + d1) ds d0 <> 0).
        assert (0 < r ^ N.of_nat (length ds)).
        { apply N.neq_0_lt_0, N.pow_nonzero; lia. }
        nia.
      * repeat split; auto; try discriminate. cbn in *. intros; congruence.
Qed.

Lemma numeral_unique r n ds ds' :
  2 <= r -> is_numeral r n ds -> is_numeral r n ds' -> ds = ds'.
Proof.
  intros Hr H H'. destruct (N.eq_dec n 0) as [->|Hn].
  - assert (Z : forall l, is_numeral r 0 l -> l = [0]).
    { intros l (Hne & Hf & Hh & Hv). apply Hh. destruct l as [|d l]; [congruence|].
      cbn. destruct (N.eq_dec d 0); auto.
      unfold value in Hv. cbn in Hv.
      pose proof (value_lower r l d Hr ltac:(auto)) as HL. rewrite Hv in HL.
      assert (0 < r ^ N.of_nat (length l)) by (apply N.neq_0_lt_0, N.pow_nonzero; lia).
      nia. }
    rewrite (Z _ H), (Z _ H'). auto.
  - apply numeral_rev_lsd in H; auto. apply numeral_rev_lsd in H'; auto.
    pose proof (lsd_fun _ _ _ _ H H') as E.
    apply (f_equal (@rev N)) in E. now rewrite !rev_involutive in E.
Qed.

(** Grouping only adds separators: [floor((k-1)/3)] of them for [k] digits. *)
Lemma group3_length sep ds :
  length (group3 sep ds) = (length ds + (length ds - 1) / 3)%nat.
Proof.
  induction ds as [|d ds IH]; [reflexivity|].
  destruct ds as [|e es]; [reflexivity|].
  change (group3 sep (d :: e :: es)) with
    (if (length (e :: es) mod 3 =? 0)%nat then d :: sep :: group3 sep (e :: es)
     else d :: group3 sep (e :: es)).
  cbn [length] in *.
  destruct (Nat.eqb_spec (S (length es) mod 3) 0); cbn [length]; rewrite IH; dlia.
Qed.

Lemma group3_remove sep ds :
  ~ In sep ds -> filter (fun c => negb (c =? sep)) (group3 sep ds) = ds.
Proof.
  induction ds as [|d ds IH]; [reflexivity|]. intros Hn.
  assert (d =? sep = false) as Hd by (apply N.eqb_neq; intros ->; apply Hn; now left).
  assert (~ In sep ds) as Hn' by (intros Hi; apply Hn; now right).
  destruct ds as [|e es].
  - cbn [group3 filter]. now rewrite Hd.
  - change (group3 sep (d :: e :: es)) with
      (if (length (e :: es) mod 3 =? 0)%nat then d :: sep :: group3 sep (e :: es)
       else d :: group3 sep (e :: es)).
    destruct (length (e :: es) mod 3 =? 0)%nat.
    + cbn [filter]. rewrite Hd, N.eqb_refl. cbn [negb]. now rewrite IH.
    + cbn [filter]. rewrite Hd. cbn [negb]. now rewrite IH.
Qed.

Lemma map_glyph_length ds : length (map glyph ds) = length ds.
Proof. apply map_length. Qed.
