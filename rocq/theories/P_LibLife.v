(** The counts of the system and the objects that stand for them. *)
From Verif Require Import Base S_LibLife M_LibLife P_Sem P_Progress.
Open Scope nat_scope.

Definition holds (k : nat) (x : option lib) : nat :=
  match x with Some (Lib _ (Some j)) => if Nat.eqb k j then 1 else 0 | _ => 0 end.
Definition is_some {A} (x : option A) : bool := match x with Some _ => true | None => false end.

(** [n k]: openings that are never undone. *)
Record LI (u : users) (n : nat -> nat) (s : lstate) : Prop := mkLI {
  I_live : live u = map is_some (libs s);
  I_maker : maker u = map fowner (fns s);
  I_count : forall k, count s k = others u k + n k + tally (holds k) (libs s);
  I_owner : forall f x, nth_error (fns s) f = Some x -> fowner x < length (libs s);
  (* a pointer leads into the library of the function's owner, as long as that lives *)
  I_addr : forall f x k m, nth_error (fns s) f = Some x -> faddr x = Some (k, m) ->
    nth_error (live u) (fowner x) = Some true -> exists l, nth_error (libs s) (fowner x) = Some (Some (Lib l (Some k))) }.

Lemma map_upd {A B} (g : A -> B) l i x : map g (upd l i x) = upd (map g l) i (g x).
Proof. revert i. induction l as [|y l IH]; intros [|i]; cbn; auto. now rewrite IH. Qed.
Lemma upd_id {A} (l : list A) i x : nth_error l i = Some x -> upd l i x = l.
Proof. revert i. induction l as [|y l IH]; intros [|i] E; try discriminate; cbn in *; [now injection E as ->|now rewrite IH]. Qed.
Lemma len_upd {A} (l : list A) i x : length (upd l i x) = length l.
Proof. revert i. induction l as [|y l IH]; intros [|i]; cbn; auto. Qed.
Lemma bump_at f k x : bump f k x = f x + (if Nat.eqb x k then 1 else 0).
Proof. unfold bump. destruct (Nat.eqb x k); lia. Qed.
Lemma drop1_at f k x : drop1 f k x = f x - (if Nat.eqb x k then 1 else 0).
Proof. unfold drop1. destruct (Nat.eqb x k); lia. Qed.
Lemma tally_app {A} (g : A -> nat) l1 l2 : tally g (l1 ++ l2) = tally g l1 + tally g l2.
Proof. induction l1 as [|x l IH]; cbn [tally fold_right app]; [reflexivity|]. fold (tally g (l ++ l2)) (tally g l). lia. Qed.

Lemma alive_lib u n s m : LI u n s -> nth_error (live u) m = Some true -> exists x, nth_error (libs s) m = Some (Some x).
Proof.
  intros H E. rewrite (I_live _ _ _ H), nth_error_map in E. destruct (nth_error (libs s) m) as [[x|]|]; try discriminate. eauto.
Qed.

(** Load keeps the invariant and gives a library that this object holds. *)
Lemma load_ok u n s m ok : LI u n s -> nth_error (live u) m = Some true ->
  exists s' h, l_load s m ok = Ok (s', h) /\ LI u n s' /\ fns s' = fns s /\
    (forall k, h = Some k -> exists l, nth_error (libs s') m = Some (Some (Lib l (Some k)))).
Proof.
  intros H E. destruct (alive_lib _ _ _ _ H E) as [[fi pt] Ex]. unfold l_load. rewrite Ex. cbn [lptr lfile].
  destruct pt as [k|].
  { exists s, (Some k). repeat split; try apply H. intros k' K. injection K as <-. eauto. }
  destruct fi as [k|].
  2:{ exists s, None. repeat split; try apply H. discriminate. }
  assert (Lv : forall y, map is_some (upd (libs s) m (Some y)) = map is_some (libs s)).
  { intros y. rewrite map_upd. apply upd_id. rewrite nth_error_map, Ex. reflexivity. }
  assert (Ad : forall y f x k0 m0, nth_error (fns s) f = Some x -> faddr x = Some (k0, m0) -> nth_error (live u) (fowner x) = Some true ->
      exists l, nth_error (upd (libs s) m y) (fowner x) = Some (Some (Lib l (Some k0)))).
  { intros y f x k0 m0 A B C. destruct (I_addr _ _ _ H f x k0 m0 A B C) as [l El]. exists l.
    destruct (Nat.eq_dec m (fowner x)) as [->|D]; [congruence|]. now rewrite put_other. }
  destruct ok; do 2 eexists; (split; [reflexivity|]); (split; [|split; [reflexivity|]]).
  - split; cbn [live maker others opened set_lib count libs fns].
    + now rewrite Lv, <- (I_live _ _ _ H).
    + apply H.
    + intros j. rewrite bump_at, (I_count _ _ _ H). pose proof (tally_upd (holds j) (libs s) m _ (Some (Lib None (Some k))) Ex) as T. cbn [holds] in T. lia.
    + intros g z Eg. rewrite len_upd. eapply I_owner; eauto.
    + apply Ad.
  - intros k' K. injection K as <-. exists None. cbn. now apply put_same with (Some (Lib (Some k) None)).
  - split; cbn [live maker others opened set_lib count libs fns].
    + now rewrite Lv, <- (I_live _ _ _ H).
    + apply H.
    + intros j. rewrite (I_count _ _ _ H). pose proof (tally_upd (holds j) (libs s) m _ (Some (Lib None None)) Ex) as T. cbn [holds] in T. lia.
    + intros g z Eg. rewrite len_upd. eapply I_owner; eauto.
    + apply Ad.
  - discriminate.
Qed.

Lemma set_fn_ok u n s f x y : LI u n s -> nth_error (fns s) f = Some x -> fowner y = fowner x ->
  (forall k m, faddr y = Some (k, m) -> nth_error (live u) (fowner x) = Some true -> exists l, nth_error (libs s) (fowner x) = Some (Some (Lib l (Some k)))) ->
  LI u n (set_fn s f y).
Proof.
  intros H E O A. split; cbn [set_fn libs fns count]; try apply H.
  - rewrite map_upd, O, upd_id by (rewrite nth_error_map, E; reflexivity). apply H.
  - intros g z Eg. apply nth_upd_in in Eg as [[<- ->]|[_ Eg]]; [rewrite O|]; eapply I_owner; eauto.
  - intros g z k m Eg Ad Lv. apply nth_upd_in in Eg as [[<- ->]|[_ Eg]].
    + rewrite O in *. eapply A; eauto.
    + eapply I_addr; eauto.
Qed.

Lemma held u n s m l k : LI u n s -> nth_error (libs s) m = Some (Some (Lib l (Some k))) -> 0 < count s k.
Proof.
  intros H E. rewrite (I_count _ _ _ H). pose proof (tally_in (holds k) (libs s) m _ E) as T. cbn [holds] in T. rewrite Nat.eqb_refl in T. lia.
Qed.
Lemma enter_ok s p : 0 < count s (fst p) -> enter s p = Ok (s, Some p).
Proof. intros H. unfold enter. destruct (Nat.eqb (count s (fst p)) 0) eqn:E; [apply Nat.eqb_eq in E; lia|reflexivity]. Qed.

Lemma f_load_ok u n s f m ok sym : LI u n s -> nth_error (maker u) f = Some m -> nth_error (live u) m = Some true ->
  exists s' p, f_load s f ok sym = Ok (s', p) /\ LI u n s' /\ (forall a, p = Some a -> 0 < count s' (fst a)).
Proof.
  intros H Mk Lv. rewrite (I_maker _ _ _ H), nth_error_map in Mk. unfold f_load.
  destruct (nth_error (fns s) f) as [x|] eqn:E; [|discriminate]. cbn in Mk. injection Mk as <-.
  destruct (ftext x) as [nm|].
  2:{ exists s, None. repeat split; try apply H. discriminate. }
  cbv zeta. set (s1 := set_fn s f (Fn (fowner x) None (faddr x))).
  assert (H1 : LI u n s1).
  { apply set_fn_ok with x; auto. intros k m A B. eapply I_addr; eauto. }
  destruct (load_ok u n s1 (fowner x) ok H1 Lv) as (s2 & h & El & H2 & F2 & Hk). rewrite El. cbn [bind].
  destruct h as [k|].
  2:{ exists s2, None. repeat split; try apply H2. discriminate. }
  destruct (Hk k eq_refl) as [l Hl].
  assert (E2 : nth_error (fns s2) f = Some (Fn (fowner x) None (faddr x))) by (rewrite F2; cbn; now apply put_same with x).
  do 2 eexists. split; [reflexivity|]. split.
  - apply set_fn_ok with (1 := H2) (2 := E2); auto. cbn [faddr fowner]. intros k' m' K _. destruct sym; [|discriminate]. injection K as <- <-. eauto.
  - intros a K. destruct sym; [|discriminate]. injection K as <-. cbn [set_fn count fst]. eapply held; eauto.
Qed.

(** One more opening that is never undone. *)
Definition more (n : nat -> nat) (o : lop) : nat -> nat :=
  match o with CallOnce file _ true _ | CallOnceVoid file _ true _ => bump n file | _ => n end.

Lemma opened_ok u n s k : LI u n s -> LI u (bump n k) (opened s k).
Proof. intros H. split; cbn [opened libs fns count]; try apply H. intros j. rewrite !bump_at, (I_count _ _ _ H). lia. Qed.

Lemma step_ok u n s o : LI u n s -> ulegal u o ->
  exists s' x, lexec s o = Ok (s', x) /\ LI (uafter u o) (more n o) s'.
Proof.
  intros H L. pose proof (f_equal (@length _) (I_live _ _ _ H)) as Len. rewrite map_length in Len.
  destruct o as [file|m name|f ok sym|f ok sym|file name ok sym|file name ok sym|m|k|k]; cbn [lexec uafter more ulegal] in *.
  - do 2 eexists. split; [reflexivity|]. split; cbn [libs fns count live maker others].
    + rewrite map_app, <- (I_live _ _ _ H). reflexivity.
    + apply H.
    + intros j. rewrite tally_app, (I_count _ _ _ H). cbn. lia.
    + intros f x E. rewrite app_length. pose proof (I_owner _ _ _ H f x E). lia.
    + intros f x k m E A Lv. pose proof (I_owner _ _ _ H f x E) as B.
      rewrite nth_error_app1 in Lv by lia. destruct (I_addr _ _ _ H f x k m E A Lv) as [l El]. exists l.
      now rewrite nth_error_app1.
  - do 2 eexists. split; [reflexivity|]. destruct (alive_lib _ _ _ _ H L) as [y Ey].
    assert (Bm : m < length (libs s)) by (apply nth_error_Some; congruence).
    assert (N : forall f x, nth_error (fns s ++ [Fn m (Some name) None]) f = Some x -> nth_error (fns s) f = Some x \/ x = Fn m (Some name) None).
    { intros f x E. destruct (Nat.lt_ge_cases f (length (fns s))) as [G|G].
      - left. now rewrite nth_error_app1 in E.
      - right. rewrite nth_error_app2 in E by auto. destruct (f - length (fns s)) as [|[|?]]; cbn in E; congruence. }
    split; cbn [libs fns count live maker others]; try apply H.
    + rewrite map_app, <- (I_maker _ _ _ H). reflexivity.
    + intros f x E. destruct (N f x E) as [E'| ->]; [eapply I_owner; eauto|exact Bm].
    + intros f x k j E A Lv. destruct (N f x E) as [E'| ->]; [eapply I_addr; eauto|discriminate].
  - destruct L as (m & Mk & Lv). unfold l_call, f_get. pose proof Mk as Mk'. rewrite (I_maker _ _ _ H), nth_error_map in Mk'.
    destruct (nth_error (fns s) f) as [x|] eqn:E; [|discriminate]. cbn in Mk'. injection Mk' as Mk'. cbn [bind].
    destruct (faddr x) as [[k nm]|] eqn:Ad.
    + destruct (I_addr _ _ _ H f x k nm E Ad) as [l El]; [now rewrite Mk'|].
      rewrite enter_ok by (cbn; eapply held; eauto). eauto.
    + destruct (f_load_ok u n s f m ok sym H Mk Lv) as (s' & p & El & H' & P'). rewrite El. cbn [bind].
      destruct p as [a|]; [rewrite enter_ok by auto|]; eauto.
  - destruct L as (m & Mk & Lv). unfold l_call_void, f_get. pose proof Mk as Mk'. rewrite (I_maker _ _ _ H), nth_error_map in Mk'.
    destruct (nth_error (fns s) f) as [x|] eqn:E; [|discriminate]. cbn [bind].
    destruct (faddr x) as [a0|]; [|eauto].
    destruct (f_load_ok u n s f m ok sym H Mk Lv) as (s' & p & El & H' & P'). rewrite El. cbn [bind].
    destruct p as [a|]; [rewrite enter_ok by auto|]; eauto.
  - unfold l_once. destruct ok; cbn [negb]; [|eauto]. pose proof (opened_ok u n s file H) as H'. cbv zeta.
    destruct sym; [rewrite enter_ok|]; eauto. cbn. rewrite bump_at, Nat.eqb_refl. lia.
  - unfold l_once. destruct ok; cbn [negb]; [|eauto]. pose proof (opened_ok u n s file H) as H'. cbv zeta.
    destruct sym; [rewrite enter_ok|]; eauto. cbn. rewrite bump_at, Nat.eqb_refl. lia.
  - destruct (alive_lib _ _ _ _ H L) as [[fi pt] Ex]. unfold l_destroy. rewrite Ex. cbn [lptr].
    assert (X : exists c, match pt with Some k => closed s k | None => Ok s end = Ok (LState c (libs s) (fns s)) /\
       forall j, c j + holds j (Some (Lib fi pt)) = count s j).
    { destruct pt as [k|].
      - pose proof (held _ _ _ _ _ _ H Ex) as P. unfold closed. destruct (Nat.eqb (count s k) 0) eqn:Z; [apply Nat.eqb_eq in Z; lia|].
        eexists. split; [reflexivity|]. intros j. rewrite drop1_at. cbn [holds]. destruct (Nat.eqb j k) eqn:Ej; [apply Nat.eqb_eq in Ej; subst j|]; lia.
      - exists (count s). split; [destruct s; reflexivity|]. intros j. cbn [holds]. lia. }
    destruct X as (c & -> & Hc). cbn [bind]. do 2 eexists. split; [reflexivity|].
    split; cbn [set_lib libs fns count live maker others]; try apply H.
    + rewrite map_upd, <- (I_live _ _ _ H). reflexivity.
    + intros j. pose proof (tally_upd (holds j) (libs s) m _ None Ex) as T. cbn [holds] in T. specialize (Hc j). cbn [holds] in Hc.
      pose proof (I_count _ _ _ H j). destruct pt; lia.
    + intros f x E. rewrite len_upd. eapply I_owner; eauto.
    + intros f x k j E A Lv. destruct (Nat.eq_dec m (fowner x)) as [D|D].
      * rewrite <- D in Lv. rewrite (put_same _ _ _ _ L) in Lv. discriminate.
      * rewrite put_other in Lv by auto. rewrite put_other by auto. eapply I_addr; eauto.
  - do 2 eexists. split; [reflexivity|]. split; cbn [opened libs fns count live maker others]; try apply H.
    intros j. rewrite !bump_at, (I_count _ _ _ H). lia.
  - unfold closed. pose proof (I_count _ _ _ H k) as C. destruct (Nat.eqb (count s k) 0) eqn:Z; [apply Nat.eqb_eq in Z; lia|]. cbn [bind].
    do 2 eexists. split; [reflexivity|]. split; cbn [libs fns count live maker others]; try apply H.
    intros j. rewrite !drop1_at, (I_count _ _ _ H). destruct (Nat.eqb j k) eqn:Ej; [apply Nat.eqb_eq in Ej; subst j|]; lia.
Qed.

Lemma once_more k o os n : more n o k + once k os = n k + once k (o :: os).
Proof.
  destruct o as [file|m name|f ok sym|f ok sym|file name ok sym|file name ok sym|m|j|j]; cbn [more once]; try reflexivity;
    destruct ok; try reflexivity; rewrite bump_at, (Nat.eqb_sym k file); lia.
Qed.

Lemma LI_ext u n n' s : LI u n s -> (forall k, n k = n' k) -> LI u n' s.
Proof. intros H E. split; try apply H. intros k. rewrite <- E. apply H. Qed.

Lemma run_ok os : forall u n s, LI u n s -> legal u os ->
  exists s' xs, lrun s os = Ok (s', xs) /\ LI (uend u os) (fun k => n k + once k os) s'.
Proof.
  induction os as [|o r IH]; intros u n s H L.
  - exists s, []. split; [reflexivity|]. apply LI_ext with n; auto.
  - destruct L as [L1 L2]. destruct (step_ok u n s o H L1) as (s1 & x & E1 & H1).
    destruct (IH _ _ _ H1 L2) as (s2 & xs & E2 & H2). exists s2, (x :: xs). cbn [lrun uend]. rewrite E1. cbn [bind]. rewrite E2. split; [reflexivity|].
    apply LI_ext with (1 := H2). intros k. apply once_more.
Qed.

Lemma LI_0 : LI users0 (fun _ => 0) lstate0.
Proof. split; cbn; auto; intros [|?]; discriminate. Qed.

Lemma from_start os : legal users0 os -> exists s xs, lrun lstate0 os = Ok (s, xs) /\ LI (uend users0 os) (fun k => once k os) s.
Proof. intros L. destruct (run_ok os _ _ _ LI_0 L) as (s & xs & E & H). exists s, xs. split; auto. Qed.
