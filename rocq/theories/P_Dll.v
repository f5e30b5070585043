(** Doubly linked segments and the effect of the pointer surgery of [M_Dll]. *)
From Verif Require Import Base S_Seq M_Dll.

Lemma fupd_same {A} (f : nat -> A) x v : fupd f x v x = v.
Proof. unfold fupd. now rewrite Nat.eqb_refl. Qed.
Lemma fupd_other {A} (f : nat -> A) x v y : y <> x -> fupd f x v y = f y.
Proof. unfold fupd. intros H. apply Nat.eqb_neq in H. now rewrite H. Qed.

Ltac fu := repeat (rewrite fupd_same in * || (rewrite fupd_other in * by (congruence || auto || lia))).

(** ** Sequence operations in split form *)
Lemma put_before_end x xs : ~ In 0 xs -> put_before 0 x xs = xs ++ [x].
Proof.
  induction xs as [|y r IH]; intros H; cbn; auto.
  destruct (Nat.eqb_spec y 0) as [->|]; [exfalso; apply H; now left|].
  f_equal. apply IH. intros K; apply H; now right.
Qed.

Lemma put_before_mid pos x l r : ~ In pos l -> put_before pos x (l ++ pos :: r) = l ++ x :: pos :: r.
Proof.
  induction l as [|y l IH]; intros H; cbn.
  - now rewrite Nat.eqb_refl.
  - destruct (Nat.eqb_spec y pos) as [->|]; [exfalso; apply H; now left|].
    f_equal. apply IH. intros K; apply H; now right.
Qed.

Lemma put_after_mid pos x l r : pos <> 0 -> ~ In pos l ->
  put_after pos x (l ++ pos :: r) = l ++ pos :: x :: r.
Proof.
  intros Hp. unfold put_after. apply Nat.eqb_neq in Hp. rewrite Hp.
  induction l as [|y l IH]; intros H; cbn.
  - now rewrite Nat.eqb_refl.
  - destruct (Nat.eqb_spec y pos) as [->|]; [exfalso; apply H; now left|].
    f_equal. apply IH. intros K; apply H; now right.
Qed.

Lemma without_notin x xs : ~ In x xs -> without x xs = xs.
Proof.
  induction xs as [|y r IH]; intros H; cbn; auto.
  destruct (Nat.eqb_spec y x) as [->|]; [exfalso; apply H; now left|].
  cbn. f_equal. apply IH. intros K; apply H; now right.
Qed.

Lemma without_mid x l r : ~ In x l -> ~ In x r -> without x (l ++ x :: r) = l ++ r.
Proof.
  intros Hl Hr. unfold without. rewrite filter_app. cbn. rewrite Nat.eqb_refl. cbn.
  change (without x l ++ without x r = l ++ r). now rewrite !without_notin.
Qed.

(** ** Segments *)
Fixpoint seg (L : links) (p : nat) (xs : list nat) (n : nat) : Prop :=
  match xs with
  | [] => True
  | x :: r => pv L x = p /\ nx L x = hd n r /\ seg L x r n
  end.

Lemma last_cons {A} (x y : A) l d : last (x :: y :: l) d = last (y :: l) d.
Proof. reflexivity. Qed.

Lemma last_cons_d {A} (x : A) l d : last (x :: l) d = last l x.
Proof.
  revert x d; induction l as [|y l IH]; intros x d; auto.
  rewrite last_cons. now rewrite (IH y d), (IH y x).
Qed.

Lemma last_snoc {A} (l : list A) x d : last (l ++ [x]) d = x.
Proof. induction l as [|y l IH]; auto. cbn. destruct (l ++ [x]) eqn:E; auto. destruct l; discriminate. Qed.

Lemma last_app_cons {A} (l : list A) x r d : last (l ++ x :: r) d = last r x.
Proof.
  revert d; induction l as [|y l IH]; intros d; cbn [app]; rewrite ?last_cons_d; auto.
Qed.

Lemma hd_app {A} (l r : list A) d : hd d (l ++ r) = hd (hd d r) l.
Proof. destruct l; auto. Qed.

Lemma seg_app L p l r n : seg L p (l ++ r) n <-> seg L p l (hd n r) /\ seg L (last l p) r n.
Proof.
  revert p; induction l as [|x l IH]; intros p.
  - cbn. tauto.
  - rewrite last_cons_d. cbn [app seg]. rewrite IH, hd_app. tauto.
Qed.

Lemma seg_frame L L' p xs n :
  (forall x, In x xs -> nx L' x = nx L x /\ pv L' x = pv L x) -> seg L p xs n -> seg L' p xs n.
Proof.
  revert p; induction xs as [|x r IH]; intros p H; cbn; auto.
  intros (H1 & H2 & H3). destruct (H x (or_introl eq_refl)) as [E1 E2].
  rewrite E1, E2. repeat split; auto. apply IH; auto. intros y Hy; apply H; now right.
Qed.

(** Redirect the last link of a segment. *)
Lemma seg_set_last L L' p xs n n' :
  NoDup xs -> seg L p xs n ->
  (forall x, In x xs -> pv L' x = pv L x) ->
  (forall x, In x xs -> x <> last xs 0 -> nx L' x = nx L x) ->
  (xs <> [] -> nx L' (last xs 0) = n') ->
  seg L' p xs n'.
Proof.
  revert p; induction xs as [|x r IH]; intros p Nd; cbn [seg]; auto.
  intros (H1 & H2 & H3) Hp Hn Hl.
  apply NoDup_cons_iff in Nd as [Nx Nd].
  split; [rewrite Hp; auto; now left|].
  destruct r as [|y r].
  - split; [|cbn; auto]. now apply Hl.
  - split.
    + rewrite Hn; [exact H2 | now left |]. rewrite last_cons. intros E. apply Nx. rewrite E.
      clear. revert y; induction r as [|z r IH]; intros y; [now left|]. rewrite last_cons. right. apply IH.
    + apply IH; auto.
      * intros z Hz; apply Hp; now right.
      * intros z Hz D; apply Hn; [now right|]. now rewrite last_cons.
      * intros _. rewrite <- Hl by discriminate. now rewrite last_cons.
Qed.

(** Redirect the first back link. *)
Lemma seg_set_first L L' p p' x r n :
  seg L p (x :: r) n ->
  (forall y, In y (x :: r) -> nx L' y = nx L y) ->
  (forall y, In y r -> pv L' y = pv L y) -> pv L' x = p' -> seg L' p' (x :: r) n.
Proof.
  cbn [seg]. intros (H1 & H2 & H3) Hn Hp Hx. rewrite Hx. split; [auto|].
  rewrite Hn by now left. split; [auto|].
  apply seg_frame with L; auto. intros y Hy; split; [apply Hn; now right | now apply Hp].
Qed.

Lemma last_in {A} (xs : list A) d : xs <> [] -> In (last xs d) xs.
Proof.
  destruct xs as [|x r]; [congruence|]. intros _. rewrite last_cons_d.
  revert x; induction r as [|y r IH]; intros x; [now left|]. rewrite last_cons_d. right. apply IH.
Qed.

Lemma NoDup_mid {A} (l r : list A) x : NoDup (l ++ x :: r) ->
  ~ In x l /\ ~ In x r /\ NoDup l /\ NoDup r /\ NoDup (l ++ r).
Proof.
  intros H. pose proof (NoDup_remove_1 _ _ _ H) as H1. pose proof (NoDup_remove_2 _ _ _ H) as H2.
  assert (Hl : NoDup l) by (clear -H1; induction l; cbn in *; [constructor|];
    apply NoDup_cons_iff in H1 as [a1 a2]; constructor; [intros K; apply a1, in_or_app; auto | auto]).
  assert (Hr : NoDup r) by (clear -H1; induction l; cbn in *; auto; apply NoDup_cons_iff in H1 as [_ a2]; auto).
  repeat split; auto; intros K; apply H2, in_or_app; auto.
Qed.

Lemma NoDup_insert {A} (l r : list A) x : NoDup (l ++ r) -> ~ In x (l ++ r) -> NoDup (l ++ x :: r).
Proof.
  induction l as [|y l IH]; cbn; intros H K; [now constructor|].
  apply NoDup_cons_iff in H as [a1 a2]. constructor.
  - rewrite in_app_iff in *. cbn. intros [E|[E|E]]; [tauto| |tauto]. apply K. left. auto.
  - apply IH; auto.
Qed.

Lemma NoDup_app_disj {A} (l r : list A) : NoDup (l ++ r) -> forall x, In x l -> In x r -> False.
Proof.
  induction l as [|y l IH]; cbn; intros H x Hl Hr; [auto|].
  apply NoDup_cons_iff in H as [a1 a2]. destruct Hl as [->|Hl]; [|eauto].
  apply a1, in_or_app; auto.
Qed.

(** ** Lists *)
Definition dlist (L : links) (E : ends) (xs : list nat) : Prop :=
  NoDup xs /\ ~ In 0 xs /\ hd_ E = hd 0 xs /\ tl_ E = last xs 0 /\ seg L 0 xs 0.

Lemma dlist_frame L L' E xs :
  (forall x, In x xs -> nx L' x = nx L x /\ pv L' x = pv L x) -> dlist L E xs -> dlist L' E xs.
Proof. intros H (a & b & c & d & e). repeat split; auto. now apply seg_frame with L. Qed.

(** Links touched only at [xs]. *)
Definition same_off (xs : list nat) (L L' : links) : Prop :=
  forall y, ~ In y xs -> nx L' y = nx L y /\ pv L' y = pv L y.

Lemma eqb_0 x : x <> 0 -> Nat.eqb x 0 = false.
Proof. apply Nat.eqb_neq. Qed.

Lemma getf_Ok {A} al (f : nat -> A) p : al p = true -> getf al f p = Ok (f p).
Proof. unfold getf. now intros ->. Qed.
Lemma setf_Ok {A} al (f : nat -> A) p v : al p = true -> setf al f p v = Ok (fupd f p v).
Proof. unfold setf. now intros ->. Qed.

Ltac heap :=
  repeat first [ rewrite getf_Ok by auto | rewrite setf_Ok by auto | progress cbn [bind nx pv hd_ tl_] ].

Lemma dlist_end L E xs : dlist L E xs -> xs = [] /\ hd_ E = 0 /\ tl_ E = 0 \/
  xs <> [] /\ hd_ E <> 0 /\ tl_ E <> 0.
Proof.
  intros (_ & b & c & d & _). destruct xs as [|x r]; [left; auto|]. right.
  split; [discriminate|]. rewrite c, d. split.
  - cbn. intros ->. apply b; now left.
  - intros K. apply b. rewrite <- K. apply last_in. discriminate.
Qed.

(** Appending. *)
Lemma link_before_end al L E xs x :
  dlist L E xs -> (forall y, In y xs -> al y = true) -> al x = true ->
  x <> 0 -> ~ In x xs -> nx L x = 0 ->
  exists L' E', link_before al L E 0 x = Ok (L', E') /\ dlist L' E' (xs ++ [x]) /\
    same_off (x :: xs) L L'.
Proof.
  intros D Al Ax X0 Xn Nx. pose proof D as (Nd & Z & Hh & Ht & Sg).
  unfold link_before. rewrite Nat.eqb_refl. heap.
  destruct (dlist_end _ _ _ D) as [(-> & E1 & E2)|(Ne & E1 & E2)].
  - rewrite E2, E1. rewrite Nat.eqb_refl. heap.
    eexists _, _; split; [reflexivity|]. split.
    + repeat split; cbn; fu; auto. constructor; [intros []|constructor]. intros [K|[]]; auto.
    + intros y Hy. cbn in *. fu; auto.
  - rewrite (eqb_0 _ E2), (eqb_0 _ E1).
    assert (In (tl_ E) xs) by (rewrite Ht; now apply last_in).
    heap. eexists _, _; split; [reflexivity|].
    assert (Tx : tl_ E <> x) by (intros K; subst; auto).
    split.
    + split; [|split; [|split; [|split]]]; cbn [hd_ tl_].
      * apply NoDup_insert; rewrite app_nil_r; auto.
      * rewrite in_app_iff. cbn. intros [K|[K|[]]]; auto.
      * rewrite Hh. destruct xs; [congruence|auto].
      * now rewrite last_snoc.
      * apply seg_app. cbn [hd]. split.
        -- apply seg_set_last with L 0; auto; cbn [nx pv].
           ++ intros y Hy. apply fupd_other. intros ->; auto.
           ++ intros y Hy D'. rewrite fupd_other; auto. congruence.
           ++ intros _. rewrite <- Ht. now rewrite fupd_same.
        -- cbn. fu. rewrite Ht. auto.
    + intros y Hy. cbn in *. rewrite !fupd_other; auto; intros ->; auto.
Qed.

(** Inserting before a member. *)
Lemma link_before_mid al L E l pos r x :
  dlist L E (l ++ pos :: r) -> (forall y, In y (l ++ pos :: r) -> al y = true) -> al x = true ->
  x <> 0 -> ~ In x (l ++ pos :: r) ->
  exists L' E', link_before al L E pos x = Ok (L', E') /\ dlist L' E' (l ++ x :: pos :: r) /\
    same_off (x :: l ++ pos :: r) L L'.
Proof.
  intros D Al Ax X0 Xn. pose proof D as (Nd & Z & Hh & Ht & Sg).
  assert (P0 : pos <> 0) by (intros ->; apply Z, in_or_app; right; now left).
  assert (Ipos : In pos (l ++ pos :: r)) by (apply in_or_app; right; now left).
  assert (Px : pos <> x) by (intros ->; auto).
  destruct (NoDup_mid _ _ _ Nd) as (Pl & Pr & Nl & Nr & _).
  unfold link_before. rewrite (eqb_0 _ P0). heap.
  assert (Hpv : pv L pos = last l 0) by (apply seg_app in Sg as [_ Sg]; cbn in Sg; tauto).
  rewrite Hpv, fupd_same.
  assert (Hlast : l <> [] -> In (last l 0) l) by apply last_in.
  assert (Hst : exists nx2, (if Nat.eqb (last l 0) 0 then Ok (fupd (nx L) x pos)
                 else setf al (fupd (nx L) x pos) (last l 0) x) = Ok nx2
                 /\ nx2 x = pos /\ (l <> [] -> nx2 (last l 0) = x)
                 /\ (forall y, y <> x -> y <> last l 0 \/ l = [] -> nx2 y = nx L y)).
  { destruct l as [|z l].
    - cbn. eexists; split; [reflexivity|]. rewrite fupd_same. repeat split; auto; [congruence|].
      intros y Hy _. now apply fupd_other.
    - assert (Hz : In (last (z :: l) 0) (z :: l)) by (apply last_in; discriminate).
      assert (last (z :: l) 0 <> 0).
      { intros K. apply Z. rewrite <- K. apply in_or_app; left; auto. }
      rewrite eqb_0 by auto. rewrite setf_Ok by (apply Al, in_or_app; auto).
      eexists; split; [reflexivity|].
      assert (last (z :: l) 0 <> x) by (intros K; apply Xn; rewrite <- K; apply in_or_app; auto).
      split; [now rewrite fupd_other, fupd_same by auto|].
      split; [intros _; apply fupd_same|].
      intros y Hy [Hy2|]; [|discriminate]. rewrite !fupd_other; auto. }
  destruct Hst as (nx2 & -> & Hx & Hll & Hoth). heap.
  eexists _, _; split; [reflexivity|]. split.
  - split; [|split; [|split; [|split]]]; cbn [hd_ tl_].
    + apply NoDup_insert; auto.
    + rewrite in_app_iff in *. cbn in *. intuition.
    + rewrite Hh. destruct l as [|z l]; cbn [app hd].
      * now rewrite Nat.eqb_refl.
      * destruct (Nat.eqb_spec pos z) as [->|]; auto. exfalso; apply Pl; now left.
    + rewrite Ht. rewrite !last_app_cons. now rewrite last_cons_d.
    + apply seg_app in Sg as [S1 S2]. cbn [hd] in S1.
      apply seg_app. cbn [hd]. split.
      * destruct l as [|z l]; [cbn; auto|].
        apply seg_set_last with L pos; auto; cbn [nx pv].
        -- intros y Hy. rewrite !fupd_other; auto.
           ++ intros ->; apply Xn, in_or_app; auto.
           ++ intros ->; auto.
        -- intros y Hy D'. apply Hoth; auto. intros ->; apply Xn, in_or_app; auto.
      * cbn [seg nx pv hd] in S2 |- *. destruct S2 as (_ & S3 & S4).
        rewrite fupd_other by auto. rewrite fupd_same.
        split; auto. split; auto.
        assert (Hnp : forall y, In y (pos :: r) -> nx2 y = nx L y).
        { intros y Hy. apply Hoth.
          - intros ->. apply Xn, in_or_app; auto.
          - destruct l as [|z l]; [now right|left]. intros K.
            apply (NoDup_app_disj _ _ Nd y); auto. rewrite K. apply Hlast. discriminate. }
        split; [apply fupd_same|]. split; [rewrite Hnp; auto; now left|].
        apply seg_frame with L; auto. cbn [nx pv]. intros y Hy. split.
        -- apply Hnp; now right.
        -- rewrite !fupd_other; auto; intros ->; auto. apply Xn, in_or_app; right; now right.
  - intros y Hy. cbn [In] in Hy. cbn [nx pv]. split.
    + apply Hoth; [intros ->; apply Hy; now left|].
      destruct l as [|z l]; [now right|left]. intros K. apply Hy. right.
      rewrite K. apply in_or_app; left. apply Hlast. discriminate.
    + rewrite !fupd_other; auto; intros ->; apply Hy; auto.
Qed.

(** At the front. *)
Lemma link_after_front al L E xs x :
  dlist L E xs -> (forall y, In y xs -> al y = true) -> al x = true ->
  x <> 0 -> ~ In x xs -> pv L x = 0 ->
  exists L' E', link_after al L E 0 x = Ok (L', E') /\ dlist L' E' (x :: xs) /\
    same_off (x :: xs) L L'.
Proof.
  intros D Al Ax X0 Xn Nx. pose proof D as (Nd & Z & Hh & Ht & Sg).
  unfold link_after. rewrite Nat.eqb_refl. heap.
  destruct xs as [|z r].
  - cbn in Hh, Ht. rewrite Hh, Ht, Nat.eqb_refl. heap.
    eexists _, _; split; [reflexivity|]. split.
    + repeat split; cbn; fu; auto. constructor; [intros []|constructor]. intros [K|[]]; auto.
    + intros y Hy. cbn in *. fu; auto.
  - destruct (dlist_end _ _ _ D) as [(? & _)|(_ & E1 & E2)]; [discriminate|].
    rewrite (eqb_0 _ E2), (eqb_0 _ E1). cbn [hd] in Hh.
    assert (al (hd_ E) = true) by (rewrite Hh; apply Al; now left).
    heap. eexists _, _; split; [reflexivity|].
    assert (Tx : z <> x) by (intros K; subst; apply Xn; now left).
    split.
    + split; [|split; [|split; [|split]]]; cbn [hd_ tl_].
      * now constructor.
      * cbn in *. intuition.
      * reflexivity.
      * rewrite Ht. now rewrite last_cons.
      * cbn [seg hd nx pv]. rewrite !fupd_other, fupd_same, Hh, fupd_same by congruence.
        split; auto. split; auto. split; auto.
        cbn [seg] in Sg. destruct Sg as (S1 & S2 & S3).
        split; [rewrite fupd_other by auto; auto|].
        apply seg_frame with L; auto. cbn [nx pv]. intros y Hy.
        apply NoDup_cons_iff in Nd as [Nz Nd].
        rewrite !fupd_other; auto; intros ->; auto. apply Xn; now right.
    + intros y Hy. cbn in *. rewrite !fupd_other; auto; intros ->; apply Hy; auto.
Qed.

(** After a member. *)
Lemma link_after_mid al L E l pos r x :
  dlist L E (l ++ pos :: r) -> (forall y, In y (l ++ pos :: r) -> al y = true) -> al x = true ->
  x <> 0 -> ~ In x (l ++ pos :: r) ->
  exists L' E', link_after al L E pos x = Ok (L', E') /\ dlist L' E' (l ++ pos :: x :: r) /\
    same_off (x :: l ++ pos :: r) L L'.
Proof.
  intros D Al Ax X0 Xn. pose proof D as (Nd & Z & Hh & Ht & Sg).
  assert (P0 : pos <> 0) by (intros ->; apply Z, in_or_app; right; now left).
  assert (Ipos : In pos (l ++ pos :: r)) by (apply in_or_app; right; now left).
  assert (Px : pos <> x) by (intros ->; auto).
  destruct (NoDup_mid _ _ _ Nd) as (Pl & Pr & Nl & Nr & _).
  unfold link_after. rewrite (eqb_0 _ P0). heap.
  pose proof Sg as Sg0. apply seg_app in Sg as [S1 S2]. cbn [hd] in S1. cbn [seg] in S2.
  destruct S2 as (S2 & Hnx & S3).
  rewrite Hnx, fupd_same.
  assert (Hst : exists pv2, (if Nat.eqb (hd 0 r) 0 then Ok (fupd (pv L) x pos)
                 else setf al (fupd (pv L) x pos) (hd 0 r) x) = Ok pv2
                 /\ pv2 x = pos /\ (r <> [] -> pv2 (hd 0 r) = x)
                 /\ (forall y, y <> x -> y <> hd 0 r \/ r = [] -> pv2 y = pv L y)).
  { destruct r as [|z r].
    - cbn. eexists; split; [reflexivity|]. rewrite fupd_same. repeat split; auto; [congruence|].
      intros y Hy _. now apply fupd_other.
    - cbn [hd].
      assert (Iz : In z (l ++ pos :: z :: r)) by (apply in_or_app; right; right; now left).
      assert (z <> 0) by (intros K; apply Z; rewrite <- K; auto).
      rewrite eqb_0 by auto. rewrite setf_Ok by auto.
      eexists; split; [reflexivity|].
      assert (z <> x) by (intros K; apply Xn; rewrite <- K; auto).
      split; [now rewrite fupd_other, fupd_same by auto|].
      split; [intros _; apply fupd_same|].
      intros y Hy [Hy2|]; [|discriminate]. rewrite !fupd_other; auto. }
  destruct Hst as (pv2 & -> & Hx & Hll & Hoth). heap.
  eexists _, _; split; [reflexivity|]. split.
  - split; [|split; [|split; [|split]]]; cbn [hd_ tl_].
    + change (NoDup (l ++ [pos] ++ x :: r)). rewrite app_assoc. apply NoDup_insert.
      * now rewrite <- app_assoc.
      * now rewrite <- app_assoc.
    + rewrite in_app_iff in *. cbn in *. intuition.
    + rewrite Hh, !hd_app. reflexivity.
    + rewrite Ht. rewrite !last_app_cons. rewrite last_cons_d.
      destruct r as [|z r].
      * cbn [last]. now rewrite Nat.eqb_refl.
      * rewrite !last_cons_d. destruct (Nat.eqb_spec pos (last r z)) as [K|]; auto.
        exfalso. apply Pr. rewrite K. clear. revert z; induction r as [|w r IH]; intros z; [now left|].
        rewrite last_cons_d. right. apply IH.
    + apply seg_app. cbn [hd]. split.
      * apply seg_frame with L; auto. cbn [nx pv]. intros y Hy. split.
        -- rewrite !fupd_other; auto; intros ->; auto. apply Xn, in_or_app; auto.
        -- apply Hoth; [intros ->; apply Xn, in_or_app; auto|].
           destruct r as [|z r]; [now right|left]. cbn [hd]. intros ->.
           apply (NoDup_app_disj _ _ Nd z); auto. right; now left.
      * cbn [seg nx pv hd]. rewrite fupd_same.
        split.
        { rewrite Hoth; auto. destruct r as [|z r]; [now right|left]. cbn [hd]. intros ->.
          apply Pr; now left. }
        split; auto. split; auto. rewrite fupd_other, fupd_same by congruence.
        split; auto.
        destruct r as [|z r]; [cbn; auto|].
        apply seg_set_first with L pos; auto; cbn [nx pv].
        -- intros y Hy. rewrite !fupd_other; auto; intros ->; auto.
           apply Xn, in_or_app; right; now right.
        -- intros y Hy. apply Hoth.
           ++ intros ->. apply Xn, in_or_app; right; right; now right.
           ++ left. cbn [hd]. intros ->. apply NoDup_cons_iff in Nr as [K _]. auto.
        -- apply Hll. discriminate.
  - intros y Hy. cbn [In] in Hy. cbn [nx pv]. split.
    + rewrite !fupd_other; auto; intros ->; apply Hy; auto.
    + apply Hoth; [intros ->; apply Hy; now left|].
      destruct r as [|z r]; [now right|left]. cbn [hd]. intros ->. apply Hy. right.
      apply in_or_app; right; right; now left.
Qed.

(** Taking a member out. *)
Lemma unlink_mid al L E l x r :
  dlist L E (l ++ x :: r) -> (forall y, In y (l ++ x :: r) -> al y = true) ->
  exists L' E', unlink al L E x = Ok (L', E') /\ dlist L' E' (l ++ r) /\
    nx L' x = 0 /\ pv L' x = 0 /\ same_off (l ++ x :: r) L L'.
Proof.
  intros D Al. pose proof D as (Nd & Z & Hh & Ht & Sg).
  assert (Ix : In x (l ++ x :: r)) by (apply in_or_app; right; now left).
  assert (X0 : x <> 0) by (intros ->; auto).
  destruct (NoDup_mid _ _ _ Nd) as (Pl & Pr & Nl & Nr & Nlr).
  apply seg_app in Sg as [S1 S2]. cbn [hd] in S1. cbn [seg] in S2.
  destruct S2 as (Hpv & Hnx & S3).
  assert (Z' : ~ In 0 (l ++ r)).
  { intros K. apply Z. rewrite in_app_iff in *. cbn. tauto. }
  (* the links after the surgery, before clearing x *)
  assert (Hst : exists L1 E1,
    (if Nat.eqb x (hd_ E) then
      let* f := getf al (nx L) (hd_ E) in
      if Nat.eqb f 0 then Ok (L, Ends f 0)
      else let* pv1 := setf al (pv L) f 0 in Ok (Links (nx L) pv1, Ends f (tl_ E))
    else if Nat.eqb x (tl_ E) then
      let* l := getf al (pv L) (tl_ E) in
      if Nat.eqb l 0 then Ok (L, Ends 0 l)
      else let* nx1 := setf al (nx L) l 0 in Ok (Links nx1 (pv L), Ends (hd_ E) l)
    else
      let* n := getf al (nx L) x in
      let* pv1 := if Nat.eqb n 0 then Ok (pv L)
                  else let* p := getf al (pv L) x in setf al (pv L) n p in
      let* p := getf al pv1 x in
      let* nx1 := if Nat.eqb p 0 then Ok (nx L)
                  else let* n := getf al (nx L) x in setf al (nx L) p n in
      Ok (Links nx1 pv1, E)) = Ok (L1, E1)
    /\ hd_ E1 = hd 0 (l ++ r) /\ tl_ E1 = last (l ++ r) 0
    /\ (l <> [] -> nx L1 (last l 0) = hd 0 r)
    /\ (r <> [] -> pv L1 (hd 0 r) = last l 0)
    /\ (forall y, l = [] \/ y <> last l 0 -> nx L1 y = nx L y)
    /\ (forall y, r = [] \/ y <> hd 0 r -> pv L1 y = pv L y)).
  { destruct l as [|a l].
    - cbn [app] in *. cbn [hd] in Hh. rewrite Hh, Nat.eqb_refl. heap. rewrite Hnx.
      destruct r as [|b r].
      + cbn. eexists _, _; split; [reflexivity|]. cbn. repeat split; auto; congruence.
      + cbn [hd] in *.
        assert (B0 : b <> 0) by (intros ->; apply Z'; now left).
        assert (al b = true) by (apply Al; right; now left).
        rewrite (eqb_0 _ B0). heap. eexists _, _; split; [reflexivity|]. cbn [hd_ tl_ nx pv last].
        split; auto. split; [now rewrite Ht, last_cons|]. split; [congruence|].
        split; [intros _; apply fupd_same|]. split; auto.
        intros y [?|?]; [congruence|]. now apply fupd_other.
    - assert (Ha : x <> a) by (intros ->; apply Pl; now left).
      cbn [app hd] in Hh. rewrite Hh. apply Nat.eqb_neq in Ha. rewrite Ha.
      assert (Il : In (last (a :: l) 0) (a :: l)) by (apply last_in; discriminate).
      assert (L0 : last (a :: l) 0 <> 0).
      { intros K. apply Z'. rewrite <- K. apply in_or_app; auto. }
      assert (al (last (a :: l) 0) = true) by (apply Al, in_or_app; auto).
      rewrite Ht, last_app_cons. destruct r as [|b r].
      + cbn [last]. rewrite Nat.eqb_refl. heap. rewrite Hpv, (eqb_0 _ L0). heap.
        eexists _, _; split; [reflexivity|]. cbn [hd_ tl_ nx pv].
        rewrite app_nil_r. split; auto. split; auto.
        split; [intros _; apply fupd_same|]. split; [congruence|].
        split; auto. intros y [?|?]; [congruence|]. now apply fupd_other.
      + rewrite last_cons_d.
        assert (Hxl : x <> last r b).
        { intros K. apply Pr. rewrite K, <- (last_cons_d b r 0). apply last_in. discriminate. }
        apply Nat.eqb_neq in Hxl. rewrite Hxl. heap. rewrite Hnx. cbn [hd].
        assert (B0 : b <> 0) by (intros ->; apply Z', in_or_app; right; now left).
        assert (al b = true) by (apply Al, in_or_app; right; right; now left).
        rewrite (eqb_0 _ B0). heap. rewrite fupd_other by (intros ->; apply Pr; now left).
        rewrite Hpv, (eqb_0 _ L0). heap.
        eexists _, _; split; [reflexivity|]. cbn [hd_ tl_ nx pv].
        split; auto. split; [now rewrite Ht, !last_app_cons, last_cons_d|].
        split; [intros _; apply fupd_same|]. split; [intros _; apply fupd_same|].
        split; intros y [?|?]; try congruence; now apply fupd_other. }
  destruct Hst as (L1 & E1 & Est & Hh1 & Ht1 & Hl1 & Hr1 & Hn1 & Hp1).
  unfold unlink. rewrite Est. heap.
  eexists _, _; split; [reflexivity|]. cbn [nx pv].
  split; [|split; [apply fupd_same|split; [apply fupd_same|]]].
  - split; auto. split; auto. split; auto. split; auto.
    assert (Ll : l <> [] -> In (last l 0) l) by apply last_in.
    assert (Hhr : r <> [] -> In (hd 0 r) r) by (destruct r; [congruence|now left]).
    apply seg_app. split.
    + apply seg_set_last with L x; auto; cbn [nx pv].
      * intros y Hy. rewrite fupd_other by (intros ->; auto). apply Hp1.
        destruct r as [|b r]; [now left|right]. cbn [hd]. intros ->.
        apply (NoDup_app_disj _ _ Nd b); auto. right; now left.
      * intros y Hy Dy. rewrite fupd_other by (intros ->; auto). apply Hn1. now right.
      * intros Hne. rewrite fupd_other; auto. intros K. apply Pl. rewrite <- K. auto.
    + destruct r as [|b r]; [cbn; auto|].
      apply seg_set_first with L x; auto; cbn [nx pv].
      * intros y Hy. rewrite fupd_other by (intros ->; auto). apply Hn1.
        destruct l as [|a l]; [now left|right]. intros ->.
        apply (NoDup_app_disj _ _ Nd (last (a :: l) 0)); [apply Ll; discriminate|]. now right.
      * intros y Hy. rewrite fupd_other by (intros ->; apply Pr; now right). apply Hp1.
        right. cbn [hd]. intros ->. apply NoDup_cons_iff in Nr as [K _]; auto.
      * rewrite fupd_other by (intros ->; apply Pr; now left). apply Hr1. discriminate.
  - intros y Hy. cbn [nx pv].
    assert (y <> x) by (intros ->; auto). rewrite !fupd_other by auto.
    rewrite in_app_iff in Hy. cbn in Hy. split.
    + apply Hn1. destruct l as [|a l]; [now left|right]. intros ->. apply Hy. left. now apply last_in.
    + apply Hp1. destruct r as [|b r]; [now left|right]. cbn. intros ->. apply Hy. right; right; now left.
Qed.

(** Walking. *)
Lemma seg_last_pv L p xs n : seg L p xs n -> forall l x r, xs = l ++ x :: r -> nx L x = hd n r /\ pv L x = last l p.
Proof. intros S l x r ->. apply seg_app in S as [_ S]. cbn in S. tauto. Qed.
