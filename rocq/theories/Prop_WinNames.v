(** C148: names of kernel objects on Windows. *)
From Verif Require Import Base S_Numeral S_Name S_WinNames M_Name M_WinNames P_Name P_WinNames.
Open Scope N_scope.

(** Create writes names inside its arrays, whatever they held; two objects call for a kernel object of
    one name exactly in the cases of [meet]. *)
Theorem C148_exact : forall init1 init2 c1 n1 s1 c2 n2 s2, text n1 -> text n2 -> exists l1 l2, calls init1 c1 n1 s1 = Ok l1 /\ calls init2 c2 n2 s2 = Ok l2 /\
  (meet c1 n1 s1 c2 n2 s2 <-> exists nm, In nm (map snd l1) /\ In nm (map snd l2)).
Proof.
  intros init1 init2 c1 n1 s1 c2 n2 s2 T1 T2. eexists. eexists. split; [apply calls_ok; exact T1|]. split; [apply calls_ok; exact T2|]. rewrite !combine_names. apply meet_iff.
Qed.

(** A Create whose object does not meet another one that was made before, whatever other objects there
    are, has the same result as without it, and no handle in common with it. *)
Theorem C148_apart : forall init1 init2 k c1 n1 s1 c2 n2 s2, text n1 -> text n2 -> ~ meet c1 n1 s1 c2 n2 s2 ->
  exists k1 os1 r1 k2 os2 r2 k3 os3, create init1 k c1 n1 s1 = Ok (k1, os1, r1) /\ create init2 k1 c2 n2 s2 = Ok (k2, os2, r2) /\
    create init2 k c2 n2 s2 = Ok (k3, os3, r2) /\ forall i, In (Some i) os1 -> ~ In (Some i) os2.
Proof.
  intros init1 init2 k c1 n1 s1 c2 n2 s2 T1 T2 NM. unfold create. rewrite (calls_ok init1 c1 n1 s1 T1), (calls_ok init2 c2 n2 s2 T2). cbn [bind].
  pose proof (combine_names c1 n1 s1) as Q1. pose proof (combine_names c2 n2 s2) as Q2. set (l1 := combine (kinds c1) (names c1 n1 s1)) in *. set (l2 := combine (kinds c2) (names c2 n2 s2)) in *.
  destruct (make_all k l1) as [k1 os1] eqn:E1. destruct (make_all k1 l2) as [k2 os2] eqn:E2. destruct (make_all k l2) as [k3 os3] eqn:E3.
  assert (D : forall nm, In nm (names c1 n1 s1) -> ~ In nm (names c2 n2 s2)) by (intros nm I1 I2; apply NM, meet_iff; eauto).
  destruct (make_all_spec l1 _ _ _ E1) as [(x & X1 & X2) O1]. destruct (make_all_spec l2 _ _ _ E2) as [(y & Y1 & Y2) O2]. rewrite Q1 in X2, O1. rewrite Q2 in Y2, O2.
  assert (L : like (fun nm => In nm (names c2 n2 s2)) k k1). { rewrite X1. apply like_app. intros e I. exact (D _ (X2 e I)). }
  pose proof (make_all_like (fun nm => In nm (names c2 n2 s2)) l2 ltac:(intros e I; rewrite <- Q2; apply in_map; exact I) k k1 L) as R. rewrite E2, E3 in R. cbn [snd] in R. unfold ok in R.
  eexists k1, os1, _, k2, os2, _, k3, os3. split; [reflexivity|]. split; [rewrite E2; reflexivity|]. split; [rewrite R; reflexivity|].
  intros i I1 I2. destruct (O1 i I1) as (e1 & N1 & J1). destruct (O2 i I2) as (e2 & N2 & J2). rewrite Y1, nth_error_app1 in N2 by (apply nth_error_Some; rewrite N1; discriminate). assert (e1 = e2) by congruence. subst e2. exact (D _ J1 J2).
Qed.

(** Two objects of one class, name and size have all handles in common. *)
Theorem C148_same : forall init1 init2 c name size size' k k1 os1, text name -> size mod 2 ^ 32 = size' mod 2 ^ 32 -> create init1 k c name size = Ok (k1, os1, true) ->
  create init2 k1 c name size' = Ok (k1, os1, true).
Proof.
  intros init1 init2 c name size size' k k1 os1 T Z. unfold create. rewrite !calls_ok by exact T. cbn [bind].
  replace (names c name size') with (names c name size) by (destruct c; cbn [names]; rewrite ?Z; reflexivity).
  set (l := combine (kinds c) (names c name size)). destruct (make_all k l) as [k' os] eqn:E. intros [= -> -> R]. 
  assert (G : forall l k k' os, make_all k l = (k', os) -> ok os = true -> make_all k' l = (k', os) /\ (forall m j t, find_name k m 0 = Some (j, t) -> find_name k' m 0 = Some (j, t))).
  { clear. induction l as [|[t nm] l IH]; intros k k' os; cbn [make_all]; [intros [= <- <-] _; auto|].
    destruct (kcreate k t nm) as [k1 o] eqn:E1. destruct (make_all k1 l) as [k2 os2] eqn:E2. intros [= <- <-]. cbn [ok forallb]. destruct o as [i|]; [|discriminate]. intro R.
    destruct (IH k1 k2 os2 E2 R) as [H1 H2]. assert (F : find_name k1 nm 0 = Some (i, t) /\ forall m j t', find_name k m 0 = Some (j, t') -> find_name k1 m 0 = Some (j, t')).
    { unfold kcreate in E1. destruct (find_name k nm 0) as [[j t']|] eqn:F.
      - destruct (kind_eqb t t') eqn:Q; [|discriminate]. injection E1 as <- <-. split; [|auto]. rewrite F. destruct t, t'; (discriminate || reflexivity).
      - injection E1 as <- <-. split.
        + rewrite find_app, F. cbn [find_name]. destruct (list_eq_dec N.eq_dec nm nm); [reflexivity|congruence].
        + intros m j t' E. rewrite find_app, E. reflexivity. }
    destruct F as [F1 F2]. split.
    - unfold kcreate. rewrite (H2 _ _ _ F1). replace (kind_eqb t t) with true by (destruct t; reflexivity). rewrite H1. reflexivity.
    - intros m j t' E. apply H2, F2, E. }
  destruct (G l k k1 os1 E R) as [H _]. rewrite H. unfold ok in R. rewrite R. reflexivity.
Qed.

(** A Create for an object that meets one of another kind fails: there is no event with the name of a
    mutex, whatever the name. *)
Theorem C148_kinds_refuted : forall init name c1 c2 s1 s2, simple c1 -> simple c2 -> c1 <> c2 -> text name ->
  exists k os, create init [] c1 name s1 = Ok (k, os, true) /\ create init k c2 name s2 = Ok (k, [None], false).
Proof.
  intros init name c1 c2 s1 s2 H1 H2 N T. unfold create. rewrite !calls_ok by exact T.
  destruct c1; try destruct H1; destruct c2; try destruct H2; try (exfalso; apply N; reflexivity); cbn [kinds names combine bind make_all kcreate find_name app length]; eexists; eexists;
    (split; [reflexivity|]); cbn [kcreate find_name]; unfold kcreate; cbn [find_name]; (destruct (list_eq_dec N.eq_dec name name); [reflexivity|congruence]).
Qed.

(** For every reader-writer lock there is a semaphore that is its inner one (and a thread that unlocks
    this semaphore lets a second writer in). *)
Theorem C148_rw_refuted : forall init name s1 s2, text name ->
  exists k i0 i1 i2 i3, create init [] CReadWrite name s1 = Ok (k, [Some i0; Some i1; Some i2; Some i3], true) /\
    create init k CSemaphore (name ++ rw_text ++ [51]) s2 = Ok (k, [Some i3], true).
Proof.
  intros init name s1 s2 T.
  assert (D : forall a b, a <> b -> name ++ rw_text ++ [a] <> name ++ rw_text ++ [b]). { intros a b N E. apply app_inv_head in E. apply app_inj_tail in E. tauto. }
  unfold create. rewrite (calls_ok init CReadWrite name s1 T), (calls_ok init CSemaphore _ s2 (text_app _ _ T (rw_text_text 51 ltac:(lia)))). cbn [bind kinds names combine].
  pose proof (D 48 49 ltac:(lia)) as D1. pose proof (D 48 50 ltac:(lia)) as D2. pose proof (D 48 51 ltac:(lia)) as D3. pose proof (D 49 50 ltac:(lia)) as D4. pose proof (D 49 51 ltac:(lia)) as D5. pose proof (D 50 51 ltac:(lia)) as D6.
  set (a := name ++ rw_text ++ [48]) in *. set (b := name ++ rw_text ++ [49]) in *. set (c := name ++ rw_text ++ [50]) in *. set (d := name ++ rw_text ++ [51]) in *.
  exists [(a, KSemaphore); (b, KSemaphore); (c, KEvent); (d, KSemaphore)], 0%nat, 1%nat, 2%nat, 3%nat. unfold make_all, kcreate. cbn [find_name app length].
  repeat (match goal with |- context [list_eq_dec N.eq_dec ?x ?y] => destruct (list_eq_dec N.eq_dec x y) as [?|?]; [try (exfalso; congruence)|try (exfalso; congruence)]; cbn [find_name app length] end).
  split; reflexivity.
Qed.

(** A mutex, a reader-writer lock and a shared memory, all named "a", and a semaphore "b"; then a
    semaphore "a" is refused. *)
Example C148_ex : exists k1 k2 k3 k4, create 205 [] CMutex [97] 0 = Ok (k1, [Some 0%nat], true) /\ create 205 k1 CReadWrite [97] 0 = Ok (k2, [Some 1%nat; Some 2%nat; Some 3%nat; Some 4%nat], true) /\
  create 205 k2 CSharedMem [97] 1000 = Ok (k3, [Some 5%nat], true) /\ create 205 k3 CSemaphore [98] 0 = Ok (k4, [Some 6%nat], true) /\ create 205 k4 CSemaphore [97] 0 = Ok (k4, [None], false) /\
  (* "a-1000-Sync_SharedMem" *)
  nth_error k4 5 = Some ([97; 45; 49; 48; 48; 48; 45; 83; 121; 110; 99; 95; 83; 104; 97; 114; 101; 100; 77; 101; 109], KMapping).
Proof. do 4 eexists. repeat split; vm_compute; reflexivity. Qed.

Print Assumptions C148_exact.
Print Assumptions C148_apart.
Print Assumptions C148_same.
Print Assumptions C148_kinds_refuted.
Print Assumptions C148_rw_refuted.
