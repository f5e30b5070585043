(** C121 - C123: opening one file by several objects. *)
From Verif Require Import Base S_Open M_Open P_Open.
Open Scope nat_scope.

(** ** C121: an Open that succeeds does what the flags say *)

(** The file, the size the object reports, and the other objects after a successful Open. *)
Definition opened_right (w w' : world) (i : nat) (fl : flags) : Prop :=
  exists c h a, meant fl (content w) = Some c /\ content w' = Some c /\
    objs w' i = Some h /\ f_acc fl = Some a /\ h_acc h = a /\ h_max h = Some (N.of_nat (length c)) /\
    forall j, j <> i -> objs w' j = objs w j.

Theorem C121_posix rt n w i fl sh may w' :
  Open rt n w i fl sh may = (w', true) ->
  (f_trunc fl = true -> f_acc fl = Some RDONLY -> rt = true) ->
  opened_right w w' i fl.
Proof.
  unfold Open. intros H R. destruct (f_acc fl) as [a|] eqn:EA; [|discriminate].
  destruct (negb may); [discriminate|]. change (content (Close w i)) with (content w) in H.
  destruct (sys_open rt (content w) fl a) as [c|] eqn:ES; [|discriminate].
  destruct sh as [s|]; [|discriminate]. destruct (flock_ok _ _ _ _); [|discriminate]. inversion H; subst w'; clear H.
  eexists c, _, a. rewrite obj_same. split; [|repeat split; eauto].
  - unfold sys_open in ES. unfold meant. destruct (content w) as [c0|]; auto.
    destruct (f_creat fl && f_excl fl)%bool; auto. rewrite <- ES. f_equal. destruct (f_trunc fl); auto.
    cbn [andb]. destruct a; cbn; auto. rewrite R; auto.
  - intros j N. now apply kept.
Qed.
Print Assumptions C121_posix.

Theorem C121_windows n w i fl sh may w' :
  WOpen n w i fl sh may = (w', true) ->
  (f_trunc fl = true -> f_acc fl <> Some RDONLY) ->
  opened_right w w' i fl.
Proof.
  unfold WOpen. intros H R. destruct (f_acc fl) as [a|] eqn:EA; [|destruct sh; discriminate].
  destruct sh as [s|]; [|discriminate].
  destruct (negb may); [discriminate|]. change (content (Close w i)) with (content w) in H.
  destruct (match content w with None => _ | Some c => _ end) as [c|] eqn:EG; [|discriminate].
  inversion H; subst w'; clear H.
  assert (T : (f_trunc fl && can_write a)%bool = f_trunc fl).
  { destruct (f_trunc fl); auto. destruct a; auto. now destruct (R eq_refl). }
  rewrite T. eexists _, _, a. rewrite obj_same. split; [|split; [reflexivity|split; [reflexivity|split; [auto|split; [reflexivity|split]]]]].
  - unfold meant. destruct (content w) as [c0|].
    + destruct (f_creat fl && f_excl fl)%bool; [discriminate|]. destruct (other _ _ _ _); [discriminate|].
      inversion EG; subst. reflexivity.
    + destruct (f_creat fl); [|discriminate]. inversion EG; subst. now destruct (f_trunc fl).
  - cbn [h_max]. now destruct (f_trunc fl).
  - intros j N. now apply kept.
Qed.
Print Assumptions C121_windows.

(** What is missing: O_TRUNC with O_RDONLY on Windows.  Open succeeds, the file is unchanged,
    and the object says that it is empty. *)
Theorem C121_readonly_trunc_refuted : forall n c i s, c <> [] ->
  exists w' h, WOpen n (start (Some c)) i (Flags (Some RDONLY) false false true) (Some s) true = (w', true) /\
    content w' = Some c /\ objs w' i = Some h /\ h_max h = Some 0%N /\
    ~ opened_right (start (Some c)) w' i (Flags (Some RDONLY) false false true).
Proof.
  intros n c i s Hc.
  assert (O : other n (Close (start (Some c)) i) i (violates RDONLY s) = false).
  { apply other_false. intros j h _ N H. unfold Close in H. rewrite obj_other in H by auto. discriminate. }
  unfold WOpen. cbn [f_acc negb f_creat f_excl f_trunc andb can_write]. change (content (Close (start (Some c)) i)) with (Some c).
  cbn iota. rewrite O. eexists _, _. split; [reflexivity|]. split; [reflexivity|]. rewrite obj_same.
  split; [reflexivity|]. split; [reflexivity|].
  intros (c1 & h & a & M & C & _). cbn in M, C. inversion M; inversion C; subst. auto.
Qed.
Print Assumptions C121_readonly_trunc_refuted.

(** ** C122: an Open that fails changes nothing *)

Theorem C122_windows n w i fl sh may w' :
  WOpen n w i fl sh may = (w', false) ->
  content w' = content w /\ objs w' i = None /\ forall j, j <> i -> objs w' j = objs w j.
Proof.
  intros H. assert (E : w' = Close w i).
  { unfold WOpen in H. destruct (f_acc fl), sh; try destruct (negb may); try (now inversion H).
    destruct (match content (Close w i) with None => _ | Some c => _ end); now inversion H. }
  subst w'. unfold Close. split; [reflexivity|]. split; [apply obj_same|]. intros j N. now apply obj_other.
Qed.
Print Assumptions C122_windows.

(** On POSIX the contents stay unless truncation was asked for or the share flag is invalid. *)
Theorem C122_posix rt n w i fl s may w' :
  Open rt n w i fl (Some s) may = (w', false) ->
  (forall j h, objs w j = Some h -> content w <> None) ->
  f_trunc fl = false ->
  content w' = content w /\ forall j, j <> i -> objs w' j = objs w j.
Proof.
  intros H X T.
  assert (O : forall j, j <> i -> objs (Close w i) j = objs w j) by (intros j N; unfold Close; now apply obj_other).
  unfold Open in H. destruct (f_acc fl) as [a|]; [|inversion H; subst; auto].
  destruct (negb may); [inversion H; subst; auto|]. change (content (Close w i)) with (content w) in H.
  destruct (sys_open rt (content w) fl a) as [c|] eqn:ES; [|inversion H; subst; auto].
  destruct (flock_ok _ _ _ _) eqn:EF; [discriminate|]. inversion H; subst w'; clear H. split.
  - cbn. unfold flock_ok in EF. apply negb_false_iff, other_true in EF. destruct EF as (j & h & _ & N & Hj & _).
    cbn [objs] in Hj. rewrite O in Hj by auto. specialize (X j h Hj). unfold sys_open in ES.
    destruct (content w) as [c0|]; [|congruence]. destruct (f_creat fl && f_excl fl)%bool; [discriminate|].
    rewrite T in ES. cbn in ES. congruence.
  - intros j N. rewrite obj_other by auto. apply O, N.
Qed.
Print Assumptions C122_posix.

(** A file that another object has locked is emptied by an Open that is then refused. *)
Theorem C122_emptied_refuted : forall rt n c i j s s', i < n -> j < n -> i <> j -> s <> ShareBoth \/ s' <> ShareBoth ->
  exists w1 w2,
    Open rt n (start (Some c)) i (Flags (Some RDWR) false false false) (Some s) true = (w1, true) /\ content w1 = Some c /\
    Open rt n w1 j (Flags (Some RDWR) false false true) (Some s') true = (w2, false) /\ content w2 = Some [] /\
    objs w2 i = objs w1 i /\ objs w2 j <> None.
Proof.
  intros rt n c i j s s' Hi Hj N S. set (e := match s with ShareBoth => false | _ => true end).
  set (w1 := set_obj (World (Some c) (objs (Close (start (Some c)) i))) i (Some (Handle RDWR (Some s) (Some e) (Some (N.of_nat (length c)))))).
  assert (E1 : Open rt n (start (Some c)) i (Flags (Some RDWR) false false false) (Some s) true = (w1, true)).
  { unfold Open. cbn [f_acc negb sys_open content Close set_obj start f_creat f_excl f_trunc andb]. fold e.
    replace (flock_ok _ _ _ _) with true; [reflexivity|]. symmetry. unfold flock_ok. apply negb_true_iff, other_false.
    intros k h _ Nk H. cbn in H. rewrite (proj2 (Nat.eqb_neq _ _) Nk) in H. discriminate. }
  exists w1. eexists. split; [exact E1|]. split; [reflexivity|].
  assert (Oi : objs (Close w1 j) i = Some (Handle RDWR (Some s) (Some e) (Some (N.of_nat (length c))))).
  { unfold Close. rewrite obj_other by auto. apply obj_same. }
  unfold Open. cbn [f_acc negb]. change (content (Close w1 j)) with (Some c). cbn [sys_open f_creat f_excl f_trunc andb can_write orb].
  replace (flock_ok _ _ _ _) with false.
  - split; [reflexivity|]. split; [reflexivity|]. split.
    + now apply kept.
    + rewrite obj_same. discriminate.
  - symmetry. unfold flock_ok. apply negb_false_iff, other_true. eexists i, _. split; [auto|]. split; [auto|]. split; [exact Oi|].
    cbn [h_lock]. unfold e. destruct S, s, s'; try reflexivity; congruence.
Qed.
Print Assumptions C122_emptied_refuted.

(** With a share flag that is none of the four, Open fails but the file has been made. *)
Theorem C122_created_refuted : forall rt n i a,
  exists w, Open rt n (start None) i (Flags (Some a) true true false) None true = (w, false) /\
    content w = Some [] /\ objs w i <> None.
Proof. intros. eexists. split; [reflexivity|]. split; [reflexivity|]. rewrite obj_same. discriminate. Qed.
Print Assumptions C122_created_refuted.

(** ** C123: which objects may have the file open at the same time *)

Definition opening (h : handle) (s : share) : access * share := (h_acc h, s).

(** Windows: after any calls, any two objects that are open allow each other ... *)
Theorem C123_windows : forall n c l w bs, run n (WOpen n) (start c) l = (w, bs) ->
  forall j k h h' s s', j <> k -> objs w j = Some h -> objs w k = Some h' ->
  h_share h = Some s -> h_share h' = Some s' -> together (opening h s) (opening h' s').
Proof.
  intros n c l w bs E. pose proof (win_run n l (start c) (win_start n c)) as I. rewrite E in I. apply I.
Qed.
Print Assumptions C123_windows.

(** ... and an Open of an existing file that may be opened fails only if some other does not allow it. *)
Theorem C123_windows_exact : forall n c l w bs i fl a s, run n (WOpen n) (start c) l = (w, bs) ->
  f_acc fl = Some a -> meant fl (content w) <> None ->
  (snd (WOpen n w i fl (Some s) true) = true <->
   forall j h s', j <> i -> objs w j = Some h -> h_share h = Some s' -> together (a, s) (opening h s')).
Proof.
  intros n c l w bs i fl a s E A M. pose proof (win_run n l (start c) (win_start n c)) as I. rewrite E in I. cbn [fst] in I.
  assert (O : forall j, j <> i -> objs (Close w i) j = objs w j) by (intros j N; unfold Close; now apply obj_other).
  unfold WOpen. rewrite A. cbn [negb]. change (content (Close w i)) with (content w).
  unfold meant in M. destruct (content w) as [c0|] eqn:EC.
  - destruct (f_creat fl && f_excl fl)%bool; [congruence|].
    destruct (other n (Close w i) i (violates a s)) eqn:EV; cbn [snd].
    + split; [discriminate|]. intros H. apply other_true in EV. destruct EV as (j & h & L & N & Hj & V).
      rewrite O in Hj by auto. destruct (proj1 I j h Hj) as [_ [s' S']].
      rewrite (proj2 (violates_together a s h s' S') (H j h s' N Hj S')) in V. discriminate.
    + split; [|reflexivity]. intros _ j h s' N Hj S'. apply (violates_together a s h s' S').
      rewrite other_false in EV. apply (EV j h); auto; [now apply I in Hj|now rewrite O].
  - destruct (f_creat fl); [|congruence]. cbn [snd]. split; [|reflexivity].
    intros _ j h s' N Hj. destruct I as (_ & B & _). rewrite (B EC j) in Hj. discriminate.
Qed.
Print Assumptions C123_windows_exact.

(** POSIX: the objects whose Open succeeded (they hold a lock) allow each other; indeed if there
    are two, all of them share both. *)
Theorem C123_posix : forall rt n c l w bs, run n (Open rt n) (start c) l = (w, bs) ->
  forall j k h h', j <> k -> objs w j = Some h -> objs w k = Some h' -> h_lock h <> None -> h_lock h' <> None ->
  h_share h = Some ShareBoth /\ h_share h' = Some ShareBoth /\ together (opening h ShareBoth) (opening h' ShareBoth).
Proof.
  intros rt n c l w bs E j k h h' N Hj Hk L L'. pose proof (pos_run rt n l (start c) (pos_start n c)) as I.
  rewrite E in I. cbn [fst] in I. destruct I as (_ & B & C).
  destruct (h_lock h) as [e|] eqn:E1; [|congruence]. destruct (h_lock h') as [e'|] eqn:E2; [|congruence].
  destruct (C j k h h' e e' N Hj Hk E1 E2) as [-> ->].
  destruct (B j h Hj) as [X|(s & S1 & S2)]; [congruence|]. destruct (B k h' Hk) as [X|(s' & S1' & S2')]; [congruence|].
  assert (s = ShareBoth) by (destruct s; congruence). assert (s' = ShareBoth) by (destruct s'; congruence). subst.
  repeat split; auto; intros; auto.
Qed.
Print Assumptions C123_posix.

(** A successful Open takes a lock, and only a successful one. *)
Theorem C123_posix_lock : forall rt n w i fl sh may w' b, Open rt n w i fl sh may = (w', b) ->
  b = true <-> exists h, objs w' i = Some h /\ h_lock h <> None.
Proof.
  intros rt n w i fl sh may w' b H. unfold Open in H.
  assert (Z : (w', b) = (Close w i, false) -> b = true <-> exists h, objs w' i = Some h /\ h_lock h <> None).
  { intros X. inversion X; subst. split; [discriminate|]. intros (h & X1 & _). unfold Close in X1. rewrite obj_same in X1. discriminate. }
  destruct (f_acc fl); auto. destruct (negb may); auto. destruct (sys_open _ _ _ _); auto.
  destruct sh as [s|].
  - destruct (flock_ok _ _ _ _); inversion H; subst; rewrite obj_same; split; auto; try discriminate.
    + intros _. eexists. split; [reflexivity|]. discriminate.
    + intros (h & X & Y). inversion X; subst. now cbn in Y.
  - inversion H; subst; rewrite obj_same; split; [discriminate|]. intros (h & X & Y). inversion X; subst. now cbn in Y.
Qed.
Print Assumptions C123_posix_lock.

(** Two readers, both of which let others read: Windows lets both open the file, POSIX refuses
    the second. *)
Theorem C123_readers_refuted : forall rt n c i j, i < n -> j < n -> i <> j ->
  let r k := OOpen k (Flags (Some RDONLY) false false false) (Some ShareRead) true in
  together (RDONLY, ShareRead) (RDONLY, ShareRead) /\
  snd (run n (WOpen n) (start (Some c)) [r i; r j]) = [true; true] /\
  snd (run n (Open rt n) (start (Some c)) [r i; r j]) = [true; false].
Proof.
  intros rt n c i j Hi Hj N r. split; [|split].
  - repeat split; cbn; intros H; auto; exfalso; apply H; reflexivity.
  - unfold r. cbn [run step]. rewrite (proj2 (Nat.ltb_lt _ _) Hi), (proj2 (Nat.ltb_lt _ _) Hj).
    unfold WOpen at 1. cbn [f_acc negb f_creat f_excl f_trunc andb]. change (content (Close (start (Some c)) i)) with (Some c). cbn iota.
    replace (other _ _ _ _) with false.
    2:{ symmetry. apply other_false. intros k h _ Nk H. cbn in H. rewrite (proj2 (Nat.eqb_neq _ _) Nk) in H. discriminate. }
    unfold WOpen at 1. cbn [f_acc negb f_creat f_excl f_trunc andb]. cbn [content Close set_obj].
    replace (other _ _ _ _) with false; [reflexivity|].
    symmetry. apply other_false. intros k h _ Nk H. cbn in H. rewrite (proj2 (Nat.eqb_neq _ _) Nk) in H.
    destruct (Nat.eqb_spec k i); [inversion H; reflexivity|discriminate].
  - unfold r. cbn [run step]. rewrite (proj2 (Nat.ltb_lt _ _) Hi), (proj2 (Nat.ltb_lt _ _) Hj).
    unfold Open at 1. cbn [f_acc negb sys_open content Close set_obj start f_creat f_excl f_trunc andb].
    replace (flock_ok _ _ _ _) with true.
    2:{ symmetry. unfold flock_ok. apply negb_true_iff, other_false. intros k h _ Nk H. cbn in H.
        rewrite (proj2 (Nat.eqb_neq _ _) Nk) in H. discriminate. }
    unfold Open at 1. cbn [f_acc negb sys_open content Close set_obj f_creat f_excl f_trunc andb].
    replace (flock_ok _ _ _ _) with false; [reflexivity|].
    symmetry. unfold flock_ok. apply negb_false_iff, other_true. eexists i, _. split; [auto|]. split; [auto|].
    cbn. rewrite (proj2 (Nat.eqb_neq _ _) N), Nat.eqb_refl. split; reflexivity.
Qed.
Print Assumptions C123_readers_refuted.

(** A refused object is still open, and can write to a file whose owner shares nothing. *)
Theorem C123_left_open_refuted : forall rt n c i j s, i < n -> j < n -> i <> j ->
  exists w h h', run n (Open rt n) (start (Some c))
      [OOpen i (Flags (Some RDWR) false false false) (Some ShareNone) true;
       OOpen j (Flags (Some RDWR) false false false) (Some s) true] = (w, [true; false]) /\
    objs w i = Some h /\ objs w j = Some h' /\ h_acc h' = RDWR /\ ~ together (opening h ShareNone) (opening h' s).
Proof.
  intros rt n c i j s Hi Hj N. eexists _, _, _. cbn [run step].
  rewrite (proj2 (Nat.ltb_lt _ _) Hi), (proj2 (Nat.ltb_lt _ _) Hj).
  unfold Open at 1. cbn [f_acc negb sys_open content Close set_obj start f_creat f_excl f_trunc andb].
  replace (flock_ok _ _ _ _) with true.
  2:{ symmetry. unfold flock_ok. apply negb_true_iff, other_false. intros k h _ Nk H. cbn in H.
      rewrite (proj2 (Nat.eqb_neq _ _) Nk) in H. discriminate. }
  unfold Open at 1. cbn [f_acc negb sys_open content Close set_obj f_creat f_excl f_trunc andb].
  replace (flock_ok _ _ _ _) with false.
  2:{ symmetry. unfold flock_ok. apply negb_false_iff, other_true. eexists i, _. split; [auto|]. split; [auto|].
      cbn. rewrite (proj2 (Nat.eqb_neq _ _) N), Nat.eqb_refl. split; reflexivity. }
  split; [reflexivity|]. cbn [objs set_obj Close content]. rewrite (proj2 (Nat.eqb_neq _ _) N), !Nat.eqb_refl.
  split; [reflexivity|]. split; [reflexivity|]. split; [reflexivity|].
  intros [[A _] _]. cbn in A. destruct A as [A|A]; [intros X; discriminate|discriminate|discriminate].
Qed.
Print Assumptions C123_left_open_refuted.

(** Three objects; a creator, a reader that shares both, one that wants exclusive creation. *)
Definition ex_ops : list op :=
  [OOpen 0 (Flags (Some RDWR) true true false) (Some ShareBoth) true;
   OOpen 1 (Flags (Some RDONLY) false false false) (Some ShareBoth) true;
   OOpen 2 (Flags (Some RDWR) true true false) (Some ShareBoth) true;
   OOpen 2 (Flags (Some RDONLY) false false false) (Some ShareRead) true;
   OClose 0;
   OOpen 2 (Flags (Some RDONLY) false false false) (Some ShareRead) true].
Example C121_ex :
  snd (run 3 (Open true 3) (start None) ex_ops) = [true; true; false; false; true; false] /\
  snd (run 3 (WOpen 3) (start None) ex_ops) = [true; true; false; false; true; true].
Proof. vm_compute. split; reflexivity. Qed.
Example C122_ex :
  let w := fst (run 2 (Open true 2) (start (Some [1%N; 2%N]))
     [OOpen 0 (Flags (Some RDONLY) false false false) (Some ShareNone) true;
      OOpen 1 (Flags (Some WRONLY) true false true) (Some ShareNone) true]) in
  let w' := fst (run 2 (WOpen 2) (start (Some [1%N; 2%N]))
     [OOpen 0 (Flags (Some RDONLY) false false false) (Some ShareNone) true;
      OOpen 1 (Flags (Some WRONLY) true false true) (Some ShareNone) true]) in
  content w = Some [] /\ content w' = Some [1%N; 2%N].
Proof. vm_compute. split; reflexivity. Qed.
Example C123_ex : together (RDONLY, ShareWrite) (WRONLY, ShareRead) /\ ~ together (RDONLY, ShareRead) (WRONLY, ShareRead).
Proof.
  split.
  - repeat split; cbn; intros H; auto; exfalso; apply H; reflexivity.
  - intros [[_ A] _]. cbn in A. destruct A; discriminate.
Qed.
