(** Proofs about M_MkdirMode. *)
From Verif Require Import Base S_Path S_Tree S_Attr S_Secret M_Path M_Dir M_MkdirMode P_Path P_Dir.
Open Scope N_scope.

Section Mode.
Variable u : user.
Variables mask newgroup mode : N.
Variable now : time.
Notation mkdir_m := (mkdir_m u mask newgroup mode now).
Notation mkdirs_m := (mkdirs_m u mask newgroup mode now).
Notation NEW := (new_dir u mask newgroup mode now).
Notation reach := (reach u).

Lemma may_new k : k < 3 -> may k u NEW = orb (euid u =? 0) (andb (N.testbit mode (6 + k)) (negb (N.testbit mask (6 + k)))).
Proof.
  intro Hk. unfold may, new_dir. cbn [owner perms]. destruct (euid u =? 0); [reflexivity|]. rewrite N.eqb_refl. cbn [orb]. rewrite N.ldiff_spec. change 512 with (2 ^ 9). rewrite N.mod_pow2_bits_low by lia. reflexivity.
Qed.

(** ** The loop, in terms of paths *)
Fixpoint loop (st : dirs) (a : path) (c : bytes) (b : path) : dirs :=
  match b with [] => st | c2 :: b' => loop (fst (mkdir_m st (render (a ++ [c])))) (a ++ [c]) c2 b' end.

Lemma mkdirs_word_m w : forall v r st, ~ In 47 w -> mkdirs_m (length (w ++ r)) st (v ++ w ++ r) (length v) = mkdirs_m (length r) st (v ++ w ++ r) (length (v ++ w)).
Proof.
  induction w as [|c w IH]; intros v r st H; [rewrite app_nil_r; reflexivity|]. cbn [app length M_MkdirMode.mkdirs_m]. rewrite app_nth2, Nat.sub_diag by lia. cbn [nth].
  destruct (N.eqb_spec c slash) as [X|_]; [exfalso; apply H; left; exact X|].
  specialize (IH (v ++ [c]) r st (fun X => H (or_intror X))). rewrite <- !app_assoc in IH. cbn [app] in IH. rewrite (app_length v [c]) in IH. cbn [length] in IH.
  rewrite Nat.add_1_r in IH. exact IH.
Qed.
Lemma mkdirs_loop_m b : forall a c st, Forall fname (a ++ c :: b) -> mkdirs_m (length (c ++ render b)) st (render (a ++ c :: b)) (length (render a ++ [47])) = loop st a c b.
Proof.
  induction b as [|c2 b IH]; intros a c st F.
  - cbn [render flat_map loop]. rewrite render_add. replace (render a ++ 47 :: c) with ((render a ++ [47]) ++ c ++ []) by (rewrite app_nil_r, <- app_assoc; reflexivity).
    rewrite mkdirs_word_m; [reflexivity|]. apply Forall_app in F. destruct F as [_ F]. exact (proj1 (proj2 (Forall_inv F))).
  - assert (Eq : a ++ c :: c2 :: b = (a ++ [c]) ++ c2 :: b) by (rewrite <- app_assoc; reflexivity).
    assert (Fc : fname c) by (apply Forall_app in F; destruct F as [_ F]; exact (Forall_inv F)).
    rewrite Eq in F |- *. cbn [loop]. rewrite <- (IH (a ++ [c]) c2 _ F). assert (X : render ((a ++ [c]) ++ c2 :: b) = (render a ++ [47]) ++ c ++ render (c2 :: b)).
    { unfold render. rewrite !flat_map_app. cbn [flat_map]. rewrite <- !app_assoc. cbn [app]. rewrite ?app_nil_r, <- ?app_assoc. reflexivity. }
    rewrite X, mkdirs_word_m by exact (proj1 (proj2 Fc)). change (length (render (c2 :: b))) with (S (length (c2 ++ render b))). cbn [M_MkdirMode.mkdirs_m].
    change (render (c2 :: b)) with (47 :: c2 ++ render b). rewrite !app_assoc, app_nth2, Nat.sub_diag by lia. cbn [nth]. change (47 =? slash) with true. cbv iota.
    rewrite firstn_app, firstn_all, Nat.sub_diag, app_nil_r. rewrite render_add, <- !app_assoc. cbn [app]. f_equal. rewrite !app_length. cbn [length]. rewrite !app_length. cbn [length]. lia.
Qed.

(** ** The system call, in terms of paths *)
Definition mk (st : dirs) (p : path) : dirs * bool :=
  if reach st [] p then
    match st p, st (removelast p) with None, Some a => if may 1 u a then (set_dir st p NEW, true) else (st, false) | _, _ => (st, false) end
  else (st, false).
Lemma mkdir_mk st p : Forall fname p -> mkdir_m st (render p) = mk st p.
Proof. intro F. unfold M_MkdirMode.mkdir_m, mk. rewrite components_render by exact F. reflexivity. Qed.

Lemma reach_iff st rest : forall cur, reach st cur rest = true <-> forall x y, rest = x ++ y -> y <> [] -> exists a, st (cur ++ x) = Some a /\ may 0 u a = true.
Proof.
  induction rest as [|c r IH]; intro cur; cbn [M_MkdirMode.reach].
  - split; [|reflexivity]. intros _ x y E Hy. symmetry in E. apply app_eq_nil in E. tauto.
  - split.
    + destruct (st cur) as [a|] eqn:E; [|discriminate]. intro H. apply andb_true_iff in H. destruct H as [H1 H2]. intros x y Ex Hy. destruct x as [|d x].
      * exists a. rewrite app_nil_r. auto.
      * cbn [app] in Ex. injection Ex as <- Ex. destruct (proj1 (IH _) H2 x y Ex Hy) as (b & B1 & B2). exists b. rewrite <- app_assoc in B1. cbn [app] in B1. auto.
    + intro H. destruct (H [] (c :: r) eq_refl ltac:(discriminate)) as (a & A1 & A2). rewrite app_nil_r in A1. rewrite A1, A2. cbn [andb]. apply IH. intros x y Ex Hy.
      destruct (H (c :: x) y ltac:(cbn; congruence) Hy) as (b & B1 & B2). exists b. rewrite <- app_assoc. cbn [app]. auto.
Qed.

(** [st] is a tree in which [p] can be made, as far as what exists is concerned. *)
Record fit (st : dirs) (p : path) : Prop := Fit {
  f_root : st [] <> None;
  f_tree : forall x y, st x = None -> st (x ++ y) = None;
  f_pass : forall x c y a, p = x ++ c :: y -> st x = Some a -> may 0 u a = true;
  f_write : forall x c y a, p = x ++ c :: y -> st x = Some a -> st (x ++ [c]) = None -> may 1 u a = true }.

Definition made (st : dirs) (q : path) (st0 : dirs) : Prop := forall x, st0 x = match st x with Some v => Some v | None => if under_dec x q then Some NEW else None end.
Lemma under_add q c x : under x (q ++ [c]) <-> x = q ++ [c] \/ under x q.
Proof.
  split.
  - intros [r Er]. destruct r as [|z r] using rev_ind; [left; rewrite app_nil_r in Er; congruence|]. right. rewrite app_assoc in Er. apply app_inj_tail in Er. exists r. exact (proj1 Er).
  - intros [-> |[r ->]]; [exists []; rewrite app_nil_r; reflexivity|exists (r ++ [c]); rewrite app_assoc; reflexivity].
Qed.
Lemma made_nil st : st [] <> None -> made st [] st.
Proof. intros H x. destruct (st x) eqn:E; [reflexivity|]. destruct (under_dec x []) as [[r Er]|_]; [|reflexivity]. symmetry in Er. apply app_eq_nil in Er. destruct Er as [-> _]. congruence. Qed.

Lemma made_add st p q c y st0 : fit st p -> may 0 u NEW = true -> may 1 u NEW = true -> p = q ++ c :: y -> made st q st0 ->
  made st (q ++ [c]) (fst (mk st0 (q ++ [c]))) /\ snd (mk st0 (q ++ [c])) = match st (q ++ [c]) with None => true | _ => false end.
Proof.
  intros F M0 M1 Ep M. unfold mk.
  assert (R : reach st0 [] (q ++ [c]) = true).
  { apply reach_iff. intros x z Ex Hz. cbn [app]. destruct (exists_last Hz) as (z' & l & ->). rewrite app_assoc in Ex. apply app_inj_tail in Ex. destruct Ex as [Ex ->]. rewrite M.
    destruct (st x) as [v|] eqn:E.
    - exists v. split; [reflexivity|]. destruct z' as [|e z']; [apply (f_pass st p F x l y v); [rewrite Ep, Ex, app_nil_r; reflexivity|exact E]|].
      apply (f_pass st p F x e (z' ++ l :: y) v); [rewrite Ep, Ex, <- app_assoc; reflexivity|exact E].
    - exists NEW. destruct (under_dec x q) as [_|X]; [auto|]. exfalso. apply X. exists z'. exact Ex. }
  rewrite R, removelast_last, !M. destruct (under_dec (q ++ [c]) q) as [[r Er]|_]; [exfalso; apply (f_equal (@length bytes)) in Er; rewrite !app_length in Er; cbn in Er; lia|].
  destruct (st (q ++ [c])) as [v|] eqn:E.
  - cbn [fst snd]. split; [|reflexivity]. intro x. rewrite M. destruct (st x) as [w|] eqn:Ex; [reflexivity|].
    destruct (under_dec x q) as [X|X]; destruct (under_dec x (q ++ [c])) as [Y|Y]; try reflexivity; exfalso; [apply Y, under_add; auto|]. apply under_add in Y. destruct Y as [->|Y]; [congruence|contradiction].
  - assert (P : match (match st q with Some v => Some v | None => if under_dec q q then Some NEW else None end) with Some a => may 1 u a = true | None => False end).
    { destruct (st q) as [v|] eqn:Eq; [exact (f_write st p F q c y v Ep Eq E)|]. destruct (under_dec q q) as [_|X]; [exact M1|]. apply X. exists []. rewrite app_nil_r. reflexivity. }
    destruct (match st q with Some v => Some v | None => if under_dec q q then Some NEW else None end) as [a|]; [|contradiction]. rewrite P. cbn [fst snd]. split; [|reflexivity]. intro x. unfold set_dir.
    destruct (path_dec x (q ++ [c])) as [->|Ne].
    + rewrite E. destruct (under_dec (q ++ [c]) (q ++ [c])) as [_|X]; [reflexivity|]. exfalso. apply X, under_add. auto.
    + rewrite M. destruct (st x); [reflexivity|]. destruct (under_dec x q) as [X|X]; destruct (under_dec x (q ++ [c])) as [Y|Y]; try reflexivity; exfalso; [apply Y, under_add; auto|]. apply under_add in Y. destruct Y; contradiction.
Qed.

Lemma loop_made st p b : forall a c st0, fit st p -> may 0 u NEW = true -> may 1 u NEW = true -> p = a ++ c :: b -> Forall fname p -> made st a st0 ->
  exists y z, p = y ++ [z] /\ made st y (loop st0 a c b).
Proof.
  induction b as [|c2 b IH]; intros a c st0 F M0 M1 Ep Fn M; cbn [loop]; [exists a, c; auto|].
  assert (Fa : Forall fname (a ++ [c])). { rewrite Ep in Fn. replace (a ++ c :: c2 :: b) with ((a ++ [c]) ++ c2 :: b) in Fn by (rewrite <- app_assoc; reflexivity). apply Forall_app in Fn. tauto. }
  rewrite mkdir_mk by exact Fa. apply IH; try assumption; [rewrite Ep, <- app_assoc; reflexivity|]. exact (proj1 (made_add st p a c (c2 :: b) st0 F M0 M1 Ep M)).
Qed.

(** ** Rights that are not enough *)
Lemma mk_exists st p v : st p = Some v -> fst (mk st p) = st.
Proof. intro E. unfold mk. rewrite E. destruct (reach st [] p); reflexivity. Qed.
Lemma mk_stuck st q c z : (forall x y, st x = None -> st (x ++ y) = None) -> st (q ++ [c]) = None -> may 0 u NEW = false \/ may 1 u NEW = false -> z <> [] ->
  mk (set_dir st (q ++ [c]) NEW) (q ++ c :: z) = (set_dir st (q ++ [c]) NEW, false).
Proof.
  intros T E B Hz. unfold mk. set (st1 := set_dir st (q ++ [c]) NEW). destruct (reach st1 [] (q ++ c :: z)) eqn:R; [|reflexivity].
  assert (S1 : st1 (q ++ [c]) = Some NEW) by (unfold st1, set_dir; destruct (path_dec (q ++ [c]) (q ++ [c])); congruence).
  assert (SN : forall x, x <> [] -> st1 ((q ++ [c]) ++ x) = None).
  { intros x Hx. unfold st1, set_dir. destruct (path_dec ((q ++ [c]) ++ x) (q ++ [c])) as [X|_]; [|apply T; exact E]. apply (f_equal (@length bytes)) in X. rewrite app_length in X. destruct x; [congruence|]. cbn [length] in X. lia. }
  assert (Eq : q ++ c :: z = (q ++ [c]) ++ z) by (rewrite <- app_assoc; reflexivity).
  pose proof (proj1 (reach_iff st1 _ []) R) as H. destruct (H (q ++ [c]) z Eq Hz) as (a & A1 & A2). cbn [app] in A1. rewrite S1 in A1. injection A1 as <-.
  destruct B as [B|B]; [congruence|]. rewrite Eq, (SN z Hz). destruct (exists_last Hz) as (z' & l & ->). rewrite app_assoc, removelast_last. destruct z' as [|e z'].
  - rewrite app_nil_r, S1, B. reflexivity.
  - rewrite (SN (e :: z')) by discriminate. reflexivity.
Qed.
Lemma loop_stuck st q c : (forall x y, st x = None -> st (x ++ y) = None) -> st (q ++ [c]) = None -> may 0 u NEW = false \/ may 1 u NEW = false ->
  forall b a d, Forall fname (q ++ c :: a ++ d :: b) -> loop (set_dir st (q ++ [c]) NEW) (q ++ c :: a) d b = set_dir st (q ++ [c]) NEW.
Proof.
  intros T E B b. induction b as [|d2 b IH]; intros a d Fn; cbn [loop]; [reflexivity|].
  assert (Eq : (q ++ c :: a) ++ [d] = q ++ c :: (a ++ [d])) by (rewrite <- app_assoc; reflexivity). rewrite Eq.
  assert (Eq2 : q ++ c :: a ++ d :: d2 :: b = (q ++ c :: a ++ [d]) ++ d2 :: b) by (rewrite <- app_assoc; cbn [app]; rewrite <- app_assoc; reflexivity).
  rewrite mkdir_mk by (rewrite Eq2 in Fn; apply Forall_app in Fn; tauto). rewrite mk_stuck by (try assumption; apply app_ne). cbn [fst]. apply IH. rewrite <- app_assoc. exact Fn.
Qed.
Lemma loop_exists st q : forall a c b, (forall x, under x (a ++ c :: q) -> st x <> None) -> Forall fname (a ++ c :: q ++ b) -> forall d b', b = d :: b' -> loop st a c (q ++ b) = loop st (a ++ c :: q) d b'.
Proof.
  induction q as [|e q IH]; intros a c b H F d b' Eb; subst b; cbn [app loop].
  - rewrite mkdir_mk by (replace (a ++ c :: [] ++ d :: b') with ((a ++ [c]) ++ d :: b') in F by (rewrite <- app_assoc; reflexivity); apply Forall_app in F; tauto).
    destruct (st (a ++ [c])) as [v|] eqn:E; [|exfalso; apply (H (a ++ [c])); [exists []; rewrite app_nil_r; reflexivity|exact E]]. rewrite (mk_exists st _ v E). reflexivity.
  - assert (Eq : a ++ c :: e :: q = (a ++ [c]) ++ e :: q) by (rewrite <- app_assoc; reflexivity).
    assert (Eq3 : a ++ c :: (e :: q) ++ d :: b' = (a ++ [c]) ++ e :: q ++ d :: b') by (rewrite <- app_assoc; reflexivity).
    rewrite mkdir_mk by (rewrite Eq3 in F; apply Forall_app in F; tauto).
    destruct (st (a ++ [c])) as [v|] eqn:E; [|exfalso; apply (H (a ++ [c])); [exists (e :: q); exact Eq|exact E]]. rewrite (mk_exists st _ v E), Eq.
    apply IH; [rewrite <- Eq; exact H|rewrite <- Eq3; exact F|reflexivity].
Qed.
End Mode.
