(** Proofs about opening files. *)
From Verif Require Import Base S_Open M_Open.
Open Scope nat_scope.

Lemma other_true n w i p : other n w i p = true <->
  exists j h, j < n /\ j <> i /\ objs w j = Some h /\ p h = true.
Proof.
  unfold other. rewrite existsb_exists. split.
  - intros (j & Hj & H). apply in_seq in Hj. apply andb_prop in H. destruct H as [H1 H2].
    destruct (objs w j) as [h|] eqn:E; [|discriminate]. exists j, h. repeat split; auto; [lia|].
    intros ->. now rewrite Nat.eqb_refl in H1.
  - intros (j & h & H1 & H2 & H3 & H4). exists j. split; [apply in_seq; lia|].
    rewrite (proj2 (Nat.eqb_neq _ _) H2), H3. exact H4.
Qed.
Lemma other_false n w i p : other n w i p = false <->
  forall j h, j < n -> j <> i -> objs w j = Some h -> p h = false.
Proof.
  split.
  - intros H j h H1 H2 H3. destruct (p h) eqn:E; auto. rewrite <- H. symmetry. apply other_true. eauto 6.
  - intros H. destruct (other n w i p) eqn:E; auto. apply other_true in E. destruct E as (j & h & H1 & H2 & H3 & H4).
    rewrite (H j h H1 H2 H3) in H4. discriminate.
Qed.

Lemma violates_together a s h s' : h_share h = Some s' ->
  (violates a s h = false <-> together (a, s) (h_acc h, s')).
Proof.
  intros E. unfold violates, together, lets, reading, writing. rewrite E. cbn [fst snd].
  destruct a, s, (h_acc h), s'; cbn; split; intros H; try discriminate; try reflexivity;
    try (repeat split; intros; auto; congruence);
    exfalso; destruct H as [[A B] [C D]];
    repeat match goal with X : ?a <> ?b -> _ |- _ =>
      first [ destruct (X ltac:(discriminate)); discriminate | clear X ] end.
Qed.

Lemma obj_same w i h : objs (set_obj w i h) i = h.
Proof. unfold set_obj. cbn. now rewrite Nat.eqb_refl. Qed.
Lemma obj_other w i j h : j <> i -> objs (set_obj w i h) j = objs w j.
Proof. intros H. unfold set_obj. cbn. now rewrite (proj2 (Nat.eqb_neq _ _) H). Qed.

Lemma kept w i c h j : j <> i -> objs (set_obj (World c (objs (Close w i))) i h) j = objs w j.
Proof. intros H. cbn. now rewrite (proj2 (Nat.eqb_neq _ _) H). Qed.

(** ** Windows: the openings are always compatible *)
Definition win_inv (n : nat) (w : world) : Prop :=
  (forall j h, objs w j = Some h -> j < n /\ exists s, h_share h = Some s) /\
  (content w = None -> forall j, objs w j = None) /\
  (forall j k h h' s s', j <> k -> objs w j = Some h -> objs w k = Some h' ->
     h_share h = Some s -> h_share h' = Some s' -> together (h_acc h, s) (h_acc h', s')).

Lemma together_sym x y : together x y -> together y x.
Proof. unfold together. tauto. Qed.

Lemma close_inv n w i : win_inv n w -> win_inv n (Close w i).
Proof.
  intros (A & B & C). unfold Close. split; [|split].
  - intros j h H. destruct (Nat.eq_dec j i) as [->|]; [rewrite obj_same in H; discriminate|]. rewrite obj_other in H by auto. eauto.
  - intros H j. destruct (Nat.eq_dec j i) as [->|]; [apply obj_same|]. rewrite obj_other by auto. apply B. exact H.
  - intros j k h h' s s' N H1 H2. destruct (Nat.eq_dec j i) as [->|]; [rewrite obj_same in H1; discriminate|].
    destruct (Nat.eq_dec k i) as [->|]; [rewrite obj_same in H2; discriminate|]. rewrite obj_other in H1, H2 by auto. eauto.
Qed.

Lemma add_inv n w i a s m c : win_inv n w -> objs w i = None -> i < n ->
  (forall j h s', j <> i -> objs w j = Some h -> h_share h = Some s' -> together (a, s) (h_acc h, s')) ->
  win_inv n (set_obj (World (Some c) (objs w)) i (Some (Handle a (Some s) None m))).
Proof.
  intros (A & B & C) Hi L T. split; [|split].
  - intros j h H. destruct (Nat.eq_dec j i) as [->|].
    + rewrite obj_same in H. inversion H; subst. split; auto. exists s. reflexivity.
    + rewrite obj_other in H by auto. exact (A j h H).
  - discriminate.
  - intros j k h h' t t' N H1 H2 S1 S2. destruct (Nat.eq_dec j i) as [->|Nj].
    + rewrite obj_same in H1. rewrite obj_other in H2 by auto. inversion H1; subst. cbn in S1. inversion S1; subst. cbn. eauto.
    + rewrite obj_other in H1 by auto. destruct (Nat.eq_dec k i) as [->|Nk].
      * rewrite obj_same in H2. inversion H2; subst. cbn in S2. inversion S2; subst. cbn. apply together_sym. eauto.
      * rewrite obj_other in H2 by auto. eauto.
Qed.

Lemma WOpen_inv n w i fl sh may : win_inv n w -> i < n -> win_inv n (fst (WOpen n w i fl sh may)).
Proof.
  intros I L. pose proof (close_inv n w i I) as I0. unfold WOpen. destruct (f_acc fl) as [a|]; [|exact I0].
  destruct sh as [s|]; [|exact I0]. destruct (negb may); [exact I0|].
  assert (O : objs (Close w i) i = None) by apply obj_same.
  destruct (content (Close w i)) as [c|] eqn:EC.
  - destruct (f_creat fl && f_excl fl)%bool; [exact I0|].
    destruct (other n (Close w i) i (violates a s)) eqn:EV; [exact I0|].
    cbn [fst]. apply add_inv; auto. intros j h s' N H S. apply (violates_together a s h s' S).
    rewrite other_false in EV. apply (EV j h); auto. apply I0 in H. apply H.
  - destruct (f_creat fl); [|exact I0]. cbn [fst]. apply add_inv; auto.
    intros j h s' N H S. destruct I0 as (_ & B & _). rewrite (B EC j) in H. discriminate.
Qed.

Lemma win_run n : forall l w, win_inv n w -> win_inv n (fst (run n (WOpen n) w l)).
Proof.
  induction l as [|o l IH]; intros w I; [exact I|]. cbn [run].
  destruct (step n (WOpen n) w o) as [w1 b] eqn:E. specialize (IH w1).
  destruct (run n (WOpen n) w1 l) as [w2 bs]. cbn [fst] in *. apply IH.
  destruct o; cbn [step] in E; destruct (Nat.ltb_spec i n); inversion E; subst; auto.
  - pose proof (WOpen_inv n w i fl sh may I) as P. now rewrite E in P; apply P.
  - now apply close_inv.
Qed.

Lemma win_start n c : win_inv n (start c).
Proof. repeat split; intros; discriminate || auto. Qed.

(** ** POSIX: those that hold a lock are compatible *)
Definition pos_inv (n : nat) (w : world) : Prop :=
  (forall j h, objs w j = Some h -> j < n) /\
  (forall j h, objs w j = Some h -> h_lock h = None \/ exists s, h_share h = Some s /\ h_lock h = Some (match s with ShareBoth => false | _ => true end)) /\
  (forall j k h h' e e', j <> k -> objs w j = Some h -> objs w k = Some h' -> h_lock h = Some e -> h_lock h' = Some e' -> e = false /\ e' = false).

Lemma pclose_inv n w i : pos_inv n w -> pos_inv n (Close w i).
Proof.
  intros (A & B & C). unfold Close. split; [|split].
  - intros j h H. destruct (Nat.eq_dec j i) as [->|]; [rewrite obj_same in H; discriminate|]. rewrite obj_other in H by auto. eauto.
  - intros j h H. destruct (Nat.eq_dec j i) as [->|]; [rewrite obj_same in H; discriminate|]. rewrite obj_other in H by auto. eauto.
  - intros j k h h' s s' N H1 H2. destruct (Nat.eq_dec j i) as [->|]; [rewrite obj_same in H1; discriminate|].
    destruct (Nat.eq_dec k i) as [->|]; [rewrite obj_same in H2; discriminate|]. rewrite obj_other in H1, H2 by auto. eauto.
Qed.

Lemma padd_inv n w i h c : pos_inv n w -> objs w i = None -> i < n ->
  (h_lock h = None \/ exists s, h_share h = Some s /\ h_lock h = Some (match s with ShareBoth => false | _ => true end)) ->
  (forall e j h' e', h_lock h = Some e -> j <> i -> objs w j = Some h' -> h_lock h' = Some e' -> e = false /\ e' = false) ->
  pos_inv n (set_obj (World (Some c) (objs w)) i (Some h)).
Proof.
  intros (A & B & C) Hi L HL T. split; [|split].
  - intros j h' H. destruct (Nat.eq_dec j i) as [->|]; auto. rewrite obj_other in H by auto. exact (A j h' H).
  - intros j h' H. destruct (Nat.eq_dec j i) as [->|]; [rewrite obj_same in H; inversion H; subst; auto|].
    rewrite obj_other in H by auto. exact (B j h' H).
  - intros j k h1 h2 t t' N H1 H2 S1 S2. destruct (Nat.eq_dec j i) as [->|Nj].
    + rewrite obj_same in H1. rewrite obj_other in H2 by auto. inversion H1; subst. eauto.
    + rewrite obj_other in H1 by auto. destruct (Nat.eq_dec k i) as [->|Nk].
      * rewrite obj_same in H2. inversion H2; subst. destruct (T t' j h1 t S2 Nj H1 S1). auto.
      * rewrite obj_other in H2 by auto. eauto.
Qed.

Lemma Open_inv rt n w i fl sh may : pos_inv n w -> i < n -> pos_inv n (fst (Open rt n w i fl sh may)).
Proof.
  intros I L. pose proof (pclose_inv n w i I) as I0. unfold Open. destruct (f_acc fl) as [a|]; [|exact I0].
  destruct (negb may); [exact I0|]. assert (O : objs (Close w i) i = None) by apply obj_same.
  destruct (sys_open rt (content (Close w i)) fl a) as [c|]; [|exact I0].
  destruct sh as [s|].
  2:{ cbn [fst]. apply padd_inv; auto. cbn. discriminate. }
  destruct (flock_ok n _ i _) eqn:EF; cbn [fst]; apply padd_inv; auto; cbn [h_lock h_share].
  - right. eauto.
  - intros e j h' e' He N H1 H2. inversion He; subst. unfold flock_ok in EF. apply negb_true_iff in EF.
    rewrite other_false in EF. specialize (EF j h' (proj1 I0 j h' H1) N H1). cbv beta in EF. rewrite H2 in EF.
    apply orb_false_iff in EF. tauto.
  - discriminate.
Qed.

Lemma pos_run rt n : forall l w, pos_inv n w -> pos_inv n (fst (run n (Open rt n) w l)).
Proof.
  induction l as [|o l IH]; intros w I; [exact I|]. cbn [run].
  destruct (step n (Open rt n) w o) as [w1 b] eqn:E. specialize (IH w1).
  destruct (run n (Open rt n) w1 l) as [w2 bs]. cbn [fst] in *. apply IH.
  destruct o; cbn [step] in E; destruct (Nat.ltb_spec i n); inversion E; subst; auto.
  - pose proof (Open_inv rt n w i fl sh may I) as P. now rewrite E in P; apply P.
  - now apply pclose_inv.
Qed.

Lemma pos_start n c : pos_inv n (start c).
Proof. repeat split; intros; discriminate || auto. Qed.
