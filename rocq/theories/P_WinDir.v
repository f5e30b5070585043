(** Proofs about Windows directories. *)
From Verif Require Import Base S_Utf8 S_Path S_Tree S_WinPath S_WinTree M_Utf8 M_WinPath M_WinDir P_Utf8 P_MixedVar P_Path P_WinPath P_WinAbs P_Dir P_WinFile Prop_Utf8.
Open Scope N_scope.

(** ** Path names *)
Lemma wsplit_app a r : wsplit (a ++ 92 :: r) = wsplit a ++ wsplit r.
Proof.
  induction a as [|c a IH]; [reflexivity|]. cbn [app wsplit]. destruct (N.eqb_spec c 92) as [->|H]; rewrite IH; [reflexivity|].
  pose proof (wsplit_ne a). destruct (wsplit a); [congruence|reflexivity].
Qed.

Lemma wcomponents_add d n : wname n -> wcomponents (d ++ 92 :: n) = wcomponents d ++ [n].
Proof.
  intros (A & B & _). unfold wcomponents. rewrite wsplit_app, filter_app, (wsplit_one n B). f_equal. destruct n; [congruence|reflexivity].
Qed.

Lemma wrender_add p n : wrender (p ++ [n]) = wrender p ++ 92 :: n.
Proof. unfold wrender. rewrite flat_map_app. cbn. rewrite app_nil_r. reflexivity. Qed.

Lemma wcomponents_render p : Forall wname p -> wcomponents (wrender p) = p.
Proof.
  induction p as [|n p IH] using rev_ind; intro F; [reflexivity|]. apply Forall_app in F. destruct F as [F1 F2].
  rewrite wrender_add, wcomponents_add by exact (Forall_inv F2). rewrite IH by exact F1. reflexivity.
Qed.

Lemma after_prefix_app v r : after_prefix v (v ++ r) = Some r.
Proof. induction v as [|a v IH]; [reflexivity|]. cbn. rewrite N.eqb_refl. exact IH. Qed.

Lemma wwalk_way t links : forall p cur, Forall wname p -> (forall a b, p = a ++ b -> b <> [] -> lookup t (cur ++ a) = Some KDir) ->
  walk t links cur p = Some (cur ++ p).
Proof.
  induction p as [|c p IH]; intros cur F W; [destruct links; cbn; rewrite app_nil_r; reflexivity|].
  rewrite walk_unfold. pose proof (Forall_inv F) as (_ & _ & _ & N1 & N2).
  destruct (list_eq_dec N.eq_dec c [46]); [congruence|]. destruct (list_eq_dec N.eq_dec c [46; 46]); [congruence|].
  destruct p as [|c2 p]; [reflexivity|]. rewrite (W [c] (c2 :: p) eq_refl ltac:(discriminate)).
  rewrite IH by (exact (Forall_inv_tail F) || (intros a b E Hb; rewrite <- app_assoc; cbn [app]; apply (W (c :: a) b); [rewrite E; reflexivity|exact Hb])).
  rewrite <- app_assoc. reflexivity.
Qed.

Lemma wplace_full v t p : Forall wname p -> way t p -> wplace_of v t (full v p) = Some p.
Proof.
  intros F W. unfold wplace_of, full. rewrite after_prefix_app, wcomponents_render by exact F. exact (wwalk_way t LINKS p [] F W).
Qed.

Lemma full_add v p n : full v (p ++ [n]) = full v p ++ 92 :: n.
Proof. unfold full. rewrite wrender_add, app_assoc. reflexivity. Qed.

Lemma full_under v p q : under p q -> (length (full v p) <= length (full v q))%nat.
Proof. intros [r ->]. unfold full, wrender. rewrite flat_map_app, app_assoc, (app_length (v ++ _)). apply Nat.le_add_r. Qed.

Lemma full_nz v p : ~ In 0 v -> Forall wname p -> ~ In 0 (full v p).
Proof.
  intros Hv F H. unfold full, wrender in H. apply in_app_or in H. destruct H as [H|H]; [exact (Hv H)|].
  apply in_flat_map in H. destruct H as (c & Hc & H). rewrite Forall_forall in F. destruct (F c Hc) as (_ & _ & Z & _).
  destruct H as [H|H]; [discriminate|exact (Z H)].
Qed.

(** ** Sound trees *)
Definition parents (t : tree) : Prop := forall p c, lookup t (p ++ [c]) <> None -> lookup t p = Some KDir.
Definition wkeys (t : tree) : Prop := forall p k, In (p, k) t -> p <> [] /\ Forall wname p.

Lemma parent_of t a : parents t -> forall b, lookup t (a ++ b) <> None -> b <> [] -> lookup t a = Some KDir.
Proof.
  intros C. induction b as [|c b IH] using rev_ind; intros L Hb; [congruence|]. rewrite app_assoc in L. specialize (C _ _ L).
  destruct b as [|x b]; [rewrite app_nil_r in C; exact C|]. apply IH; [rewrite C; discriminate|discriminate].
Qed.

Lemma wroad t p : parents t -> lookup t p = Some KDir -> road t p.
Proof.
  intros S L a b ->. destruct b as [|c b]; [rewrite app_nil_r in L; exact L|]. apply (parent_of t a S (c :: b)); [rewrite L; discriminate|discriminate].
Qed.

Lemma name_at t p : wkeys t -> lookup t p <> None -> Forall wname p.
Proof. intros K L. destruct (lookup_in t p L) as [->|[k H]]; [constructor|exact (proj2 (K p k H))]. Qed.

Lemma child_in t p c : In c (children t p) <-> lookup t (p ++ [c]) <> None.
Proof.
  rewrite children_in. split.
  - intros [k H]. apply in_entry in H. destruct p; exact H.
  - intro L. destruct (lookup_in _ _ L) as [E|H]; [destruct p; discriminate|exact H].
Qed.

(** ** The effect of a call *)
Section Effect.
Variable v : bytes.
Variables ro dl : path -> bool.
Notation removable := (removable v ro).
Notation clearable := (clearable v ro).

(** Within [P], exactly what can be cleared is gone; all else is as it was. *)
Definition eff (P : path -> Prop) (t t1 : tree) : Prop :=
  (forall q, P q -> clearable t q -> lookup t1 q = None) /\ (forall q, ~ (P q /\ clearable t q) -> lookup t1 q = lookup t q).

Lemma removable_dec q : {removable q} + {~ removable q}.
Proof.
  unfold S_WinTree.removable. destruct (ro q); [right; intros [H _]; discriminate|].
  destruct (le_dec (length (full v q)) (N.to_nat 8190)); [left; split; [reflexivity|assumption]|right; intros [_ H]; contradiction].
Qed.

Lemma eff_fewer P t t1 q : eff P t t1 -> lookup t1 q <> None -> lookup t q <> None.
Proof. intros [_ E] H X. apply H. rewrite E; [exact X|]. intros [_ [Y _]]. exact (Y X). Qed.

Lemma eff_back P t t1 q : eff P t t1 -> clearable t1 q -> clearable t q.
Proof.
  intros E [H1 H2]. split; [exact (eff_fewer P t t1 q E H1)|]. intros r Hr Lr. destruct (removable_dec r) as [R|R]; [exact R|].
  apply H2; [exact Hr|]. rewrite (proj2 E); [exact Lr|]. intros [_ [_ C]]. apply R, C; [exists []; rewrite app_nil_r; reflexivity|exact Lr].
Qed.

Lemma eff_none t : eff (fun _ => False) t t.
Proof. split; [contradiction|reflexivity]. Qed.

Lemma eff_comp P Q t t1 t2 : (forall q, P q \/ ~ P q) -> eff P t t1 -> eff Q t1 t2 -> eff (fun q => P q \/ Q q) t t2.
Proof.
  intros D E1 E2. split.
  - intros q HPQ C. destruct (D q) as [HP|HP].
    + rewrite (proj2 E2); [exact (proj1 E1 q HP C)|]. intros [_ [X _]]. exact (X (proj1 E1 q HP C)).
    + destruct HPQ as [H|HQ]; [contradiction|]. apply (proj1 E2); [exact HQ|]. destruct C as [C1 C2]. split.
      * rewrite (proj2 E1); [exact C1|]. intros [H _]. contradiction.
      * intros r Hr Lr. apply C2; [exact Hr|exact (eff_fewer P t t1 r E1 Lr)].
  - intros q H. rewrite (proj2 E2); [apply (proj2 E1); intros [A B]; apply H; split; [left; exact A|exact B]|].
    intros [A B]. apply H. split; [right; exact A|exact (eff_back P t t1 q E1 B)].
Qed.

Lemma eff_ext P Q t t1 : (forall q, lookup t q <> None -> (P q <-> Q q)) -> eff P t t1 -> eff Q t t1.
Proof.
  intros X [A B]. split.
  - intros q H C. apply A; [|exact C]. apply X; [exact (proj1 C)|exact H].
  - intros q H. apply B. intros [H1 H2]. apply H. split; [|exact H2]. apply X; [exact (proj1 H2)|exact H1].
Qed.

Lemma clearable_under t p q : clearable t p -> under p q -> lookup t q <> None -> clearable t q.
Proof.
  intros [_ C] [r ->] L. split; [exact L|]. intros x [s ->] Lx. apply C; [|exact Lx]. exists (r ++ s). apply app_assoc_reverse.
Qed.

Lemma eff_parents (P : path -> Prop) t t1 : parents t -> (forall q c, P q -> P (q ++ [c])) -> eff P t t1 -> parents t1.
Proof.
  intros Pa Cl E p c L. pose proof (eff_fewer P t t1 _ E L) as L0. pose proof (Pa p c L0) as Lp.
  destruct (lookup t1 p) as [k|] eqn:E1.
  - rewrite <- E1, (proj2 E p); [exact Lp|]. intros [A B]. rewrite (proj1 E p A B) in E1. discriminate.
  - exfalso. assert (~ ~ (P p /\ clearable t p)) as NN by (intro X; rewrite (proj2 E p X), Lp in E1; discriminate).
    apply NN. intros [A B]. apply L. apply (proj1 E); [apply Cl; exact A|].
    apply (clearable_under t p); [exact B|exists [c]; reflexivity|exact L0].
Qed.

Lemma under_self (p : path) : under p p.
Proof. exists []. rewrite app_nil_r. reflexivity. Qed.

Lemma under_cases (p q : path) : under p q -> q = p \/ below p q.
Proof. intros [[|c r] ->]; [left; apply app_nil_r|right; exists c, r; reflexivity]. Qed.

Lemma below_under (p q : path) : below p q -> under p q.
Proof. intros (c & r & ->). exists (c :: r). reflexivity. Qed.

Lemma below_lookup t p q : parents t -> below p q -> lookup t q <> None -> lookup t p = Some KDir.
Proof. intros Pa (c & r & ->) L. apply (parent_of t p Pa (c :: r) L). discriminate. Qed.

Lemma below_child_lookup t p q : parents t -> below p q -> lookup t q <> None -> exists c, lookup t (p ++ [c]) <> None /\ under (p ++ [c]) q.
Proof.
  intros Pa (c & r & ->) L. exists c. split; [|exists r; rewrite <- app_assoc; reflexivity].
  destruct r as [|d r]; [exact L|]. change (c :: d :: r) with ([c] ++ d :: r) in L. rewrite app_assoc in L.
  rewrite (parent_of t (p ++ [c]) Pa (d :: r) L) by discriminate. discriminate.
Qed.

(** Deleting something that is not a directory. *)
Lemma eff_leaf t x t1 : parents t -> x <> [] -> lookup t x <> Some KDir ->
  (removable x -> lookup t x <> None -> t1 = del t x) -> (~ (removable x /\ lookup t x <> None) -> t1 = t) -> eff (under x) t t1.
Proof.
  intros Pa Hx Nd H1 H2.
  assert (Only : forall q, under x q -> lookup t q <> None -> q = x).
  { intros q U L. destruct (under_cases x q U) as [->|B]; [reflexivity|]. destruct Nd. exact (below_lookup t x q Pa B L). }
  destruct (removable_dec x) as [R|R]; [destruct (lookup t x) as [k|] eqn:Lx|].
  - rewrite (H1 R ltac:(discriminate)). split.
    + intros q U [L _]. rewrite (Only q U L), lookup_del by exact Hx. destruct (path_dec x x); [reflexivity|congruence].
    + intros q H. rewrite lookup_del by exact Hx. destruct (path_dec x q) as [<-|]; [|reflexivity]. destruct H. split; [apply under_self|].
      split; [rewrite Lx; discriminate|]. intros q U L. rewrite (Only q U L). exact R.
  - rewrite H2 by (intros [_ X]; congruence). split; [|reflexivity]. intros q U [L _]. rewrite (Only q U L). exact Lx.
  - rewrite H2 by (intros [X _]; contradiction). split; [|reflexivity]. intros q U [L C]. destruct R. rewrite <- (Only q U L). apply C; [apply under_self|exact L].
Qed.

Lemma eff_long t x : (N.to_nat 8190 < length (full v x))%nat -> eff (under x) t t.
Proof.
  intro Len. split; [|reflexivity]. intros q U [L C]. exfalso. pose proof (full_under v x q U). destruct (C q (under_self q) L) as [_ X]. lia.
Qed.

Lemma del_at t x : x <> [] -> forall q, lookup (del t x) q = if path_dec x q then None else lookup t q.
Proof. intros H q. apply lookup_del. exact H. Qed.

(** A directory is emptied, and then removed if it can be. *)
Lemma eff_dir t x t1 t2 : parents t -> x <> [] -> (length (full v x) <= N.to_nat 8190)%nat -> eff (below x) t t1 -> lookup t x = Some KDir ->
  t2 = (if ro x || negb (length (children t1 x) =? 0)%nat then t1 else del t1 x) -> eff (under x) t t2.
Proof.
  intros Pa Hx Len E Lx ->.
  assert (Pa1 : parents t1).
  { apply (eff_parents (below x) t t1 Pa); [|exact E]. intros q c (d & r & ->). exists d, (r ++ [c]). rewrite <- app_assoc. reflexivity. }
  assert (Lx1 : lookup t1 x = Some KDir) by (rewrite (proj2 E); [exact Lx|]; intros [B _]; exact (below_self x B)).
  assert (None1 : forall q, below x q -> ~ clearable t1 q).
  { intros q B C. pose proof (eff_back (below x) t t1 q E C) as C0. destruct C as [C _]. exact (C (proj1 E q B C0)). }
  apply (eff_ext (fun q => below x q \/ under x q)).
  - intros q _. split; [intros [H|H]; [apply below_under|]; exact H|right; assumption].
  - apply (eff_comp (below x) (under x) t t1).
    + intro q. destruct (under_dec x q) as [U|U]; [|right; intro B; apply U, below_under, B].
      destruct (path_dec q x) as [->|Hq]; [right; apply below_self|]. left. destruct (under_cases x q U); [congruence|assumption].
    + exact E.
    + split.
      * intros q U C. destruct (under_cases x q U) as [->|B]; [|destruct (None1 q B C)].
        destruct (proj2 C x (under_self x) ltac:(congruence)) as [Ro _]. rewrite Ro. rewrite (children_none t1 x).
        -- cbn [orb length Nat.eqb negb]. rewrite lookup_del by exact Hx. destruct (path_dec x x); [reflexivity|congruence].
        -- intro c. destruct (lookup t1 (x ++ [c])) as [k|] eqn:Lc; [|reflexivity]. exfalso. apply (None1 (x ++ [c])); [exists c, []; reflexivity|].
           apply (clearable_under t1 x); [exact C|exists [c]; reflexivity|congruence].
      * intros q H. destruct (ro x) eqn:Ro; [reflexivity|]. cbn [orb]. destruct (Nat.eqb_spec (length (children t1 x)) 0) as [Z|_]; [|reflexivity].
        cbn [negb]. rewrite lookup_del by exact Hx. destruct (path_dec x q) as [<-|]; [|reflexivity]. destruct H. split; [apply under_self|]. split; [congruence|].
        intros q U L. destruct (under_cases x q U) as [->|B]; [split; [exact Ro|exact Len]|]. exfalso.
        destruct (below_child_lookup t1 x q Pa1 B L) as (c & Lc & _). apply child_in in Lc. destruct (children t1 x); [destruct Lc|discriminate].
Qed.
End Effect.

(** ** The buffer *)
Lemma wr_mid (d : bytes) x c r : wr (d ++ x :: r) (length d) c = Ok (d ++ c :: r).
Proof.
  rewrite wr_in by (rewrite app_length; cbn; lia). f_equal. rewrite upd_app_r by lia. rewrite Nat.sub_diag. reflexivity.
Qed.

Lemma cstr_at d r : ~ In 0 d -> cstr (d ++ 0 :: r) = Ok d.
Proof. intro H. apply cstr_app. apply Forall_forall. intros c Hc ->. exact (H Hc). Qed.

Lemma blit_mid (d : bytes) x y n : (length n + 1 <= length y)%nat ->
  blit (d ++ x :: y) (length d + 1) (n ++ [0]) = Ok (d ++ x :: n ++ 0 :: skipn (length n + 1) y).
Proof.
  intro H. rewrite blit_in by (rewrite !app_length; cbn [length]; lia). f_equal.
  assert (Sk : forall (a : bytes) k, skipn (length a + k) (a ++ y) = skipn k y) by (intros a k; induction a as [|e a IH]; [reflexivity|exact IH]).
  replace (d ++ x :: y) with ((d ++ [x]) ++ y) by (rewrite <- app_assoc; reflexivity).
  replace (length d + 1)%nat with (length (d ++ [x]) + 0)%nat by (rewrite app_length; cbn; lia). rewrite firstn_app_2. cbn [firstn]. rewrite app_nil_r.
  rewrite Nat.add_0_r, Sk, <- !app_assoc, app_length. reflexivity.
Qed.

(** ** The recursion *)
Section Rec.
Variable v : bytes.
Variables ro dl : path -> bool.
Hypothesis Hv : ~ In 0 v.
Notation eff := (eff v ro).
Notation Rec := (WRmdir_RecurseInternal v ro dl).

Lemma eff_same P t t1 q : eff P t t1 -> lookup t1 q <> None -> lookup t1 q = lookup t q.
Proof. intros E H. apply (proj2 E). intros [A B]. exact (H (proj1 E q A B)). Qed.

Lemma place_child t p n : parents t -> lookup t p = Some KDir -> Forall wname (p ++ [n]) -> wplace_of v t (full v (p ++ [n])) = Some (p ++ [n]).
Proof. intros Pa L F. apply wplace_full; [exact F|]. apply road_way, wroad; assumption. Qed.

Lemma pattern d : find_all v dl = find_all v dl -> skipn (length (d ++ [92; 42]) - 2) (d ++ [92; 42]) = [92; 42] /\ firstn (length (d ++ [92; 42]) - 2) (d ++ [92; 42]) = d.
Proof.
  intros _. rewrite app_length. cbn [length]. replace (length d + 2 - 2)%nat with (length d + 0)%nat by lia. split.
  - rewrite skipn_app, skipn_all2 by lia. replace (length d + 0 - length d)%nat with 0%nat by lia. reflexivity.
  - rewrite firstn_app_2. cbn [firstn]. apply app_nil_r.
Qed.

(** The three units written at the end, in place. *)
Lemma star_written d x0 x1 x2 r : ~ In 0 d ->
  (let* b1 := wr (d ++ x0 :: x1 :: x2 :: r) (length d) 92 in
   let* b2 := wr b1 (length d + 1) 42 in
   wr b2 (length d + 2) 0) = Ok (d ++ 92 :: 42 :: 0 :: r).
Proof.
  intros _. rewrite wr_mid. cbn [bind].
  replace (d ++ 92 :: x1 :: x2 :: r) with ((d ++ [92]) ++ x1 :: x2 :: r) by (rewrite <- app_assoc; reflexivity).
  replace (length d + 1)%nat with (length (d ++ [92])) by (rewrite app_length; reflexivity). rewrite wr_mid. cbn [bind].
  replace ((d ++ [92]) ++ 42 :: x2 :: r) with ((d ++ [92; 42]) ++ x2 :: r) by (rewrite <- !app_assoc; reflexivity).
  replace (length d + 2)%nat with (length (d ++ [92; 42])) by (rewrite app_length; reflexivity). rewrite wr_mid. rewrite <- app_assoc. reflexivity.
Qed.

Lemma rec_unfold g t d x0 x1 x2 r : ~ In 0 d -> (length d < N.to_nat 8190)%nat ->
  Rec (S g) t (d ++ x0 :: x1 :: x2 :: r) (length d) =
  let* (t1, b4) :=
    match find_all v dl t (d ++ [92; 42]) with
    | None => Ok (t, d ++ 92 :: 42 :: 0 :: r)
    | Some es => each_found v ro dl (Rec g) (length d) es t (d ++ 92 :: 42 :: 0 :: r)
    end in
  let* b5 := wr b4 (length d) 0 in Ok (t1, b5).
Proof.
  intros Z L. cbn [WRmdir_RecurseInternal]. destruct (Nat.leb_spec (N.to_nat 8190) (length d)) as [X|_]; [lia|].
  pose proof (star_written d x0 x1 x2 r Z) as W. destruct (wr (d ++ x0 :: x1 :: x2 :: r) (length d) 92) as [b1| |]; try discriminate W. cbn [bind] in W |- *.
  destruct (wr b1 (length d + 1) 42) as [b2| |]; try discriminate W. cbn [bind] in W |- *. rewrite W. cbn [bind].
  replace (d ++ 92 :: 42 :: 0 :: r) with ((d ++ [92; 42]) ++ 0 :: r) by (rewrite <- app_assoc; reflexivity).
  rewrite cstr_at; [reflexivity|]. intro H. apply in_app_or in H. destruct H as [H|[H|[H|[]]]]; [exact (Z H)|discriminate|discriminate].
Qed.

Definition mk (t : tree) (p : path) (c : bytes) : found :=
  {| cFileName := c; is_dir := dir_attr dl t (p ++ [c]); is_reparse := reparse_attr t (p ++ [c]) |}.

Lemma find_dir t p : parents t -> wkeys t -> lookup t p = Some KDir ->
  find_all v dl t (full v p ++ [92; 42]) = Some ({| cFileName := [46]; is_dir := true; is_reparse := false |} ::
    {| cFileName := [46; 46]; is_dir := true; is_reparse := false |} :: map (mk t p) (children t p)).
Proof.
  intros Pa K L. unfold find_all. destruct (pattern (full v p) eq_refl) as [E1 E2]. rewrite E1, E2. destruct (list_eq_dec N.eq_dec [92; 42] [92; 42]); [|congruence].
  rewrite wplace_full; [|apply (name_at t p K); congruence|].
  - unfold LINKS. cbn [dir_at]. rewrite L. reflexivity.
  - intros a b -> Hb. apply (parent_of t a Pa b); [congruence|exact Hb].
Qed.

Lemma find_none t p : way t p -> Forall wname p -> lookup t p = None -> find_all v dl t (full v p ++ [92; 42]) = None.
Proof.
  intros W F L. unfold find_all. destruct (pattern (full v p) eq_refl) as [E1 E2]. rewrite E1, E2. destruct (list_eq_dec N.eq_dec [92; 42] [92; 42]); [|reflexivity].
  rewrite wplace_full by assumption. unfold LINKS. cbn [dir_at]. rewrite L. reflexivity.
Qed.

Definition among (p : path) (l : list bytes) (q : path) : Prop := exists n, In n l /\ under (p ++ [n]) q.

Lemma among_dec p l q : among p l q \/ ~ among p l q.
Proof.
  induction l as [|n l IH]; [right; intros (n & [] & _)|]. destruct IH as [(m & I1 & U)|IH]; [left; exists m; split; [right; exact I1|exact U]|].
  destruct (under_dec (p ++ [n]) q) as [U|U]; [left; exists n; split; [left; reflexivity|exact U]|].
  right. intros (m & [->|I1] & X); [exact (U X)|]. apply IH. exists m. split; assumption.
Qed.

Lemma among_more p l q c : among p l q -> among p l (q ++ [c]).
Proof. intros (n & I1 & [r ->]). exists n. split; [exact I1|]. exists (r ++ [c]). rewrite <- !app_assoc. reflexivity. Qed.

Lemma among_not_self p l a b : p = a ++ b -> ~ among p l a.
Proof. intros E (n & _ & U). exact (prefix_not_below p a b E (below_child p n a U)). Qed.

Lemma incl_delete t s : incl (fst (DeleteFileW v ro dl t s)) t.
Proof.
  unfold DeleteFileW. destruct (wplace_of v t s) as [p|]; [|apply incl_refl].
  destruct (lookup t p) as [[| |]|]; try apply incl_refl; [destruct (ro _)|destruct (_ || _)]; try apply incl_refl; apply incl_del.
Qed.

Lemma incl_remove t s : incl (fst (RemoveDirectoryW v ro dl t s)) t.
Proof.
  unfold RemoveDirectoryW. destruct (wplace_of v t s) as [[|c p]|]; try apply incl_refl.
  destruct (lookup t (c :: p)) as [[| |]|]; try apply incl_refl; destruct (_ || _); try apply incl_refl; apply incl_del.
Qed.

Definition handles (g D : nat) : Prop := forall t p x, parents t -> wkeys t -> (forall q k, In (q, k) t -> (length q <= D)%nat) -> (D < g + length p)%nat ->
  lookup t p = Some KDir -> (length (full v p) + 1 + length x)%nat = N.to_nat 8192 ->
  exists t1 x1, Rec g t (full v p ++ 0 :: x) (length (full v p)) = Ok (t1, full v p ++ 0 :: x1) /\ length x1 = length x /\ eff (below p) t t1 /\ incl t1 t.

Lemma remove_dir_at t x : x <> [] -> wplace_of v t (full v x) = Some x -> lookup t x = Some KDir ->
  fst (RemoveDirectoryW v ro dl t (full v x)) = if ro x || negb (length (children t x) =? 0)%nat then t else del t x.
Proof.
  intros Hx E L. unfold RemoveDirectoryW. rewrite E. destruct x as [|c x]; [congruence|]. rewrite L. destruct (_ || _); reflexivity.
Qed.

Lemma three (x : bytes) : (3 <= length x)%nat -> exists a b c r, x = a :: b :: c :: r.
Proof. destruct x as [|a [|b [|c r]]]; cbn [length]; intro H; try lia. exists a, b, c, r. reflexivity. Qed.

Lemma rec_gone g t p x : way t p -> Forall wname p -> lookup t p = None -> (length (full v p) + 1 + length x)%nat = N.to_nat 8192 -> (0 < g)%nat ->
  exists x1, Rec g t (full v p ++ 0 :: x) (length (full v p)) = Ok (t, full v p ++ 0 :: x1) /\ length x1 = length x.
Proof.
  intros W F L Len Hg. destruct g as [|g]; [lia|]. destruct (Nat.lt_ge_cases (length (full v p)) (N.to_nat 8190)) as [Lt|Ge].
  - destruct x as [|x1 [|x2 r]]; cbn [length] in Len; try lia. rewrite rec_unfold by (assumption || (apply full_nz; assumption)).
    rewrite find_none by assumption. cbn [bind]. rewrite wr_mid. cbn [bind]. eexists. split; reflexivity.
  - cbn [WRmdir_RecurseInternal]. destruct (Nat.leb_spec (N.to_nat 8190) (length (full v p))); [|lia]. eexists. split; reflexivity.
Qed.

Lemma loop g D t p : handles g D -> parents t -> wkeys t -> (forall q k, In (q, k) t -> (length q <= D)%nat) -> (D < S g + length p)%nat ->
  lookup t p = Some KDir -> (length (full v p) < N.to_nat 8190)%nat ->
  forall names l t0 y, Forall (fun n => lookup t (p ++ [n]) <> None) names -> eff (among p l) t t0 -> incl t0 t -> (length (full v p) + 1 + length y)%nat = N.to_nat 8192 ->
  exists t1 y1, each_found v ro dl (Rec g) (length (full v p)) (map (mk t p) names) t0 (full v p ++ 92 :: y) = Ok (t1, full v p ++ 92 :: y1) /\
    length y1 = length y /\ eff (among p (l ++ names)) t t1 /\ incl t1 t.
Proof.
  intros Ha Pa K HD Hf Lp Lt. induction names as [|n names IH]; intros l t0 y Fn E I0 Len.
  { exists t0, y. rewrite app_nil_r. split; [reflexivity|]. split; [reflexivity|]. split; assumption. }
  pose proof (Forall_inv Fn) as Ln. apply Forall_inv_tail in Fn. cbn beta in Ln.
  assert (Fx : Forall wname (p ++ [n])) by exact (name_at t _ K Ln).
  assert (Wn : wname n) by (apply Forall_app in Fx; exact (Forall_inv (proj2 Fx))).
  assert (Pa0 : parents t0) by (apply (eff_parents v ro (among p l) t t0 Pa); [intros; apply among_more; assumption|exact E]).
  assert (K0 : wkeys t0) by (intros q k H; exact (K q k (I0 _ H))).
  assert (L0 : lookup t0 p = Some KDir) by (rewrite (proj2 E); [exact Lp|]; intros [X _]; exact (among_not_self p l p [] (eq_sym (app_nil_r p)) X)).
  assert (Pl0 : wplace_of v t0 (full v (p ++ [n])) = Some (p ++ [n])) by (apply place_child; assumption).
  assert (Sx : lookup t0 (p ++ [n]) = None \/ lookup t0 (p ++ [n]) = lookup t (p ++ [n])).
  { destruct (lookup t0 (p ++ [n])) as [k|] eqn:X; [right|left; reflexivity]. rewrite <- X. apply (eff_same (among p l)); [exact E|congruence]. }
  assert (Hx : p ++ [n] <> []) by apply app_ne.
  assert (Lx : length (full v (p ++ [n])) = (length (full v p) + 1 + length n)%nat) by (rewrite full_add, app_length; cbn [length]; lia).
  assert (Next : forall t1 y1, eff (under (p ++ [n])) t0 t1 -> incl t1 t0 -> length y1 = length y ->
    exists t2 y2, each_found v ro dl (Rec g) (length (full v p)) (map (mk t p) names) t1 (full v p ++ 92 :: y1) = Ok (t2, full v p ++ 92 :: y2) /\
      length y2 = length y /\ eff (among p (l ++ n :: names)) t t2 /\ incl t2 t).
  { intros t1 y1 E1 I1 Ly. destruct (IH (l ++ [n]) t1 y1 Fn) as (t2 & y2 & R1 & R2 & R3 & R4).
    - apply (eff_ext v ro (fun q => among p l q \/ under (p ++ [n]) q)).
      + intros q _. split.
        * intros [(m & A & B)|B]; [exists m|exists n]; (split; [apply in_or_app|exact B]); [left; exact A|right; left; reflexivity].
        * intros (m & A & B). apply in_app_or in A. destruct A as [A|[<-|[]]]; [left; exists m; split; assumption|right; exact B].
      + apply (eff_comp v ro _ _ t t0); [intro; apply among_dec|exact E|exact E1].
    - intros z Hz. apply I0, I1. exact Hz.
    - lia.
    - exists t2, y2. split; [exact R1|]. split; [lia|]. split; [|exact R4]. rewrite <- app_assoc in R3. exact R3. }
  cbn [map each_found mk cFileName is_dir is_reparse]. destruct Wn as (N1 & N2 & N3 & N4 & N5).
  destruct (list_eq_dec N.eq_dec n [46]) as [X|_]; [congruence|]. destruct (list_eq_dec N.eq_dec n [46; 46]) as [X|_]; [congruence|].
  destruct (Nat.leb_spec (length (full v p) + 1 + (length n + 1)) (N.to_nat 8191)) as [Fit|Long].
  2: { apply Next; [|apply incl_refl|reflexivity]. apply eff_long. lia. }
  rewrite blit_mid by lia. cbn [bind]. set (tail := skipn (length n + 1) y).
  assert (Lt1 : length tail = (length y - (length n + 1))%nat) by (unfold tail; apply skipn_length).
  replace (full v p ++ 92 :: n ++ 0 :: tail) with (full v (p ++ [n]) ++ 0 :: tail) by (rewrite full_add, <- app_assoc; reflexivity).
  assert (Back : forall z, full v (p ++ [n]) ++ 0 :: z = full v p ++ 92 :: n ++ 0 :: z) by (intro z; rewrite full_add, <- app_assoc; reflexivity).
  assert (LenB : forall z, length z = length tail -> length (n ++ 0 :: z) = length y) by (intros z Hz; rewrite app_length; cbn [length]; lia).
  assert (Zx : ~ In 0 (full v (p ++ [n]))) by (apply full_nz; assumption).
  unfold dir_attr, reparse_attr. destruct (lookup t (p ++ [n])) as [[|tgt|]|] eqn:Kx; [| | |congruence]; cbn [negb].
  - rewrite cstr_at by exact Zx. cbn [bind]. rewrite Back. apply Next; [|apply incl_delete|apply LenB; reflexivity].
    + apply eff_leaf; [exact Pa0|exact Hx|destruct Sx; congruence| |].
      * intros [R _] L. unfold DeleteFileW. rewrite Pl0. destruct Sx as [X|X]; [congruence|]. rewrite X, R. reflexivity.
      * intros H. unfold DeleteFileW. rewrite Pl0. destruct Sx as [X|X]; rewrite X; [reflexivity|]. destruct (ro (p ++ [n])) eqn:R; [reflexivity|].
        destruct H. split; [split; [exact R|lia]|congruence].
  - destruct (dl (p ++ [n])) eqn:Dl; cbn [negb].
    + cbn [bind]. rewrite cstr_at by exact Zx. cbn [bind]. rewrite Back. apply Next; [|apply incl_remove|apply LenB; reflexivity].
      * apply eff_leaf; [exact Pa0|exact Hx|destruct Sx; congruence| |]; unfold RemoveDirectoryW; rewrite Pl0; destruct (p ++ [n]) as [|c0 r0] eqn:Ex; try congruence.
        -- intros [R _] L. destruct Sx as [X|X]; [congruence|]. rewrite X, R, Dl. reflexivity.
        -- intros H. destruct Sx as [X|X]; rewrite X; [reflexivity|]. rewrite Dl. destruct (ro (c0 :: r0)) eqn:R; [reflexivity|].
           destruct H. split; [split; [exact R|lia]|congruence].
    + rewrite cstr_at by exact Zx. cbn [bind]. rewrite Back. apply Next; [|apply incl_delete|apply LenB; reflexivity].
      * apply eff_leaf; [exact Pa0|exact Hx|destruct Sx; congruence| |]; unfold DeleteFileW; rewrite Pl0.
        -- intros [R _] L. destruct Sx as [X|X]; [congruence|]. rewrite X, R, Dl. reflexivity.
        -- intros H. destruct Sx as [X|X]; rewrite X; [reflexivity|]. rewrite Dl. destruct (ro (p ++ [n])) eqn:R; [reflexivity|].
           destruct H. split; [split; [exact R|lia]|congruence].
  - replace (length (full v p) + (length n + 1))%nat with (length (full v (p ++ [n]))) by lia.
    assert (Way : way t0 (p ++ [n])) by (apply road_way, wroad; assumption).
    assert (Lp1 : length (p ++ [n]) = S (length p)) by (rewrite app_length; cbn [length]; lia).
    destruct Sx as [X|X].
    + assert (Hg : (0 < g)%nat).
      { destruct (lookup_in t (p ++ [n]) ltac:(congruence)) as [Y|[k Y]]; [congruence|]. specialize (HD _ _ Y). lia. }
      destruct (rec_gone g t0 (p ++ [n]) tail Way Fx X ltac:(lia) Hg) as (x1 & R1 & R2). rewrite R1. cbn [bind]. rewrite cstr_at by exact Zx. cbn [bind]. rewrite Back.
      assert (Same : fst (RemoveDirectoryW v ro dl t0 (full v (p ++ [n]))) = t0).
      { unfold RemoveDirectoryW. rewrite Pl0. destruct (p ++ [n]); [reflexivity|]. rewrite X. reflexivity. }
      rewrite Same. apply Next; [|apply incl_refl|apply LenB; exact R2].
      apply eff_leaf; [exact Pa0|exact Hx|congruence| |reflexivity]. intros _ L. congruence.
    + destruct (Ha t0 (p ++ [n]) tail Pa0 K0) as (t1 & x1 & R1 & R2 & R3 & R4); [intros q k H; exact (HD q k (I0 _ H))|lia|congruence|lia|].
      rewrite R1. cbn [bind]. rewrite cstr_at by exact Zx. cbn [bind]. rewrite Back.
      assert (Pa1 : parents t1).
      { apply (eff_parents v ro (below (p ++ [n])) t0 t1 Pa0); [|exact R3]. intros q c (d & r & ->). exists d, (r ++ [c]). rewrite <- app_assoc. reflexivity. }
      assert (Lx1 : lookup t1 (p ++ [n]) = Some KDir) by (rewrite (proj2 R3); [congruence|]; intros [B _]; exact (below_self _ B)).
      assert (Lp2 : lookup t1 p = Some KDir) by (apply (Pa1 p n); congruence).
      rewrite remove_dir_at; [|exact Hx|apply place_child; assumption|exact Lx1]. apply Next; [|intros z Hz; apply R4; match type of Hz with context [if ?b then _ else _] => destruct b end; [exact Hz|exact (incl_del _ _ _ Hz)]|apply LenB; exact R2].
      apply (eff_dir v ro t0 (p ++ [n]) t1); [exact Pa0|exact Hx|lia|exact R3|congruence|reflexivity].
Qed.

Lemma rec_handles D : forall g, handles g D.
Proof.
  induction g as [|g IH]; intros t p x Pa K HD Hf Lp Len.
  { exfalso. destruct (lookup_in t p ltac:(congruence)) as [->|[k H]]; [cbn in Hf; lia|]. specialize (HD _ _ H). lia. }
  destruct (Nat.lt_ge_cases (length (full v p)) (N.to_nat 8190)) as [Lt|Ge].
  - destruct x as [|x1 [|x2 r]]; cbn [length] in Len; try lia.
    assert (Fp : Forall wname p) by (apply (name_at t p K); congruence).
    rewrite rec_unfold by (assumption || (apply full_nz; assumption)). rewrite find_dir by assumption.
    destruct (loop g D t p IH Pa K HD Hf Lp Lt (children t p) [] t (42 :: 0 :: r)) as (t1 & y1 & R1 & R2 & R3 & R4).
    + apply Forall_forall. intros c Hc. apply child_in. exact Hc.
    + apply (eff_ext v ro (fun _ => False)); [|apply eff_none]. intros q _. split; [contradiction|]. intros (n & [] & _).
    + apply incl_refl.
    + cbn [length]. lia.
    + cbn [each_found cFileName]. destruct (list_eq_dec N.eq_dec [46] [46]); [|congruence].
      destruct (list_eq_dec N.eq_dec [46; 46] [46]); [discriminate|]. destruct (list_eq_dec N.eq_dec [46; 46] [46; 46]); [|congruence].
      rewrite R1. cbn [bind]. rewrite wr_mid. cbn [bind]. exists t1, y1. split; [reflexivity|]. split; [cbn [length] in R2; exact R2|]. split; [|exact R4].
      apply (eff_ext v ro (among p (children t p))); [|exact R3]. intros q Lq. split; [intros (m & _ & U); exact (below_child p m q U)|].
      intro B. destruct (below_child_lookup t p q Pa B Lq) as (c & Lc & U). exists c. split; [apply child_in; exact Lc|exact U].
  - cbn [WRmdir_RecurseInternal]. destruct (Nat.leb_spec (N.to_nat 8190) (length (full v p))); [|lia]. exists t, x.
    split; [reflexivity|]. split; [reflexivity|]. split; [|apply incl_refl]. split; [|reflexivity].
    intros q (c & r & ->) [L C]. exfalso. destruct (C _ (under_self _) L) as [_ X]. assert (U : under (p ++ [c]) (p ++ c :: r)) by (exists r; rewrite <- app_assoc; reflexivity).
    apply (full_under v) in U. rewrite full_add, app_length in U. cbn [length] in U. lia.
Qed.
End Rec.

(** ** Making directories *)
Lemma wmade_step v t a c t0 : made t a t0 -> Forall wname (a ++ [c]) -> (lookup t (a ++ [c]) = None \/ lookup t (a ++ [c]) = Some KDir) ->
  made t (a ++ [c]) (fst (CreateDirectoryW v t0 (full v (a ++ [c])))) /\
  snd (CreateDirectoryW v t0 (full v (a ++ [c]))) = match lookup t (a ++ [c]) with None => true | _ => false end.
Proof.
  intros M F L.
  assert (Ls : forall x, under x a -> lookup t0 x = Some KDir) by (intros x U; rewrite M; destruct (under_dec x a); [reflexivity|contradiction]).
  assert (Pl : wplace_of v t0 (full v (a ++ [c])) = Some (a ++ [c])).
  { apply wplace_full; [exact F|]. intros x y E Hy. destruct (exists_last Hy) as (y' & z & ->).
    rewrite app_assoc in E. apply app_inj_tail in E. destruct E as [E _]. apply Ls. exists y'. exact E. }
  assert (Lc : lookup t0 (a ++ [c]) = lookup t (a ++ [c])).
  { rewrite M. destruct (under_dec (a ++ [c]) a) as [[r Er]|_]; [|reflexivity]. apply (f_equal (@length bytes)) in Er. rewrite !app_length in Er. cbn in Er. lia. }
  assert (U : forall q, under q (a ++ [c]) <-> q = a ++ [c] \/ under q a).
  { intro q. split.
    - intros [r Er]. destruct r as [|z r] using rev_ind; [left; rewrite app_nil_r in Er; congruence|]. right. rewrite app_assoc in Er. apply app_inj_tail in Er. exists r. exact (proj1 Er).
    - intros [-> |[r ->]]; [exists []; rewrite app_nil_r; reflexivity|exists (r ++ [c]); rewrite app_assoc; reflexivity]. }
  unfold CreateDirectoryW. rewrite Pl, Lc, removelast_last, (Ls a) by (exists []; rewrite app_nil_r; reflexivity).
  destruct L as [L|L]; rewrite L; cbn [fst snd]; (split; [|reflexivity]); intro q.
  - assert (E : lookup ((a ++ [c], KDir) :: t0) q = if path_dec (a ++ [c]) q then Some KDir else lookup t0 q).
    { destruct q as [|x q]; cbn [lookup entry]; [destruct (path_dec (a ++ [c]) []) as [X|_]; [destruct (app_ne a c X)|reflexivity]|reflexivity]. }
    etransitivity; [exact E|]. clear E. destruct (path_dec (a ++ [c]) q) as [<-|Hne].
    + destruct (under_dec (a ++ [c]) (a ++ [c])) as [_|X]; [reflexivity|exfalso; apply X; apply U; left; reflexivity].
    + rewrite M. destruct (under_dec q a) as [U1|U1]; destruct (under_dec q (a ++ [c])) as [U2|U2]; try reflexivity; exfalso; [apply U2, U; right; exact U1|].
      apply U in U2. destruct U2; [congruence|contradiction].
  - rewrite M. destruct (under_dec q a) as [U1|U1]; destruct (under_dec q (a ++ [c])) as [U2|U2]; try reflexivity; [exfalso; apply U2, U; right; exact U1|].
    apply U in U2. destruct U2 as [->|U2]; [exact L|contradiction].
Qed.

Lemma wmkdirs_word v w : forall u r t, ~ In 92 w -> wmkdirs v (length (w ++ r)) t (u ++ w ++ r) (length u) = wmkdirs v (length r) t (u ++ w ++ r) (length (u ++ w)).
Proof.
  induction w as [|c w IH]; intros u r t H; [rewrite app_nil_r; reflexivity|]. cbn [app length wmkdirs]. rewrite app_nth2, Nat.sub_diag by lia. cbn [nth].
  destruct (N.eqb_spec c 92) as [X|_]; [exfalso; apply H; left; exact X|].
  specialize (IH (u ++ [c]) r t (fun X => H (or_intror X))). rewrite <- !app_assoc in IH. cbn [app] in IH. rewrite (app_length u [c]) in IH. cbn [length] in IH.
  rewrite Nat.add_1_r in IH. exact IH.
Qed.

Lemma wmkdirs_loop v t b : forall a c t0, made t a t0 -> Forall wname (a ++ c :: b) -> (forall x, under x (a ++ c :: b) -> lookup t x = None \/ lookup t x = Some KDir) ->
  exists t1 z y, a ++ c :: b = y ++ [z] /\ wmkdirs v (length (c ++ wrender b)) t0 (full v (a ++ c :: b)) (length (full v a ++ [92])) = t1 /\ made t y t1.
Proof.
  induction b as [|c2 b IH]; intros a c t0 M F H.
  - exists t0, c, a. split; [reflexivity|]. split; [|exact M]. cbn [wrender flat_map]. rewrite full_add.
    replace (full v a ++ 92 :: c) with ((full v a ++ [92]) ++ c ++ []) by (rewrite app_nil_r, <- app_assoc; reflexivity).
    rewrite wmkdirs_word; [reflexivity|]. apply Forall_app in F. destruct F as [_ F]. exact (proj1 (proj2 (Forall_inv F))).
  - assert (Eq : a ++ c :: c2 :: b = (a ++ [c]) ++ c2 :: b) by (rewrite <- app_assoc; reflexivity).
    assert (Fc : wname c) by (apply Forall_app in F; destruct F as [_ F]; exact (Forall_inv F)).
    assert (Fa : Forall wname (a ++ [c])) by (rewrite Eq in F; apply Forall_app in F; exact (proj1 F)).
    destruct (wmade_step v t a c t0 M Fa) as [M1 _]; [apply H; exists (c2 :: b); exact Eq|].
    rewrite Eq in F, H. destruct (IH (a ++ [c]) c2 _ M1 F H) as (t1 & z & y & E1 & E2 & E3). rewrite <- Eq in E1. exists t1, z, y. split; [exact E1|]. split; [|exact E3].
    rewrite <- E2. rewrite Eq. assert (X : full v ((a ++ [c]) ++ c2 :: b) = (full v a ++ [92]) ++ c ++ wrender (c2 :: b)).
    { unfold full, wrender. rewrite !flat_map_app. cbn [flat_map]. rewrite <- !app_assoc. cbn [app]. rewrite ?app_nil_r, <- ?app_assoc. reflexivity. }
    rewrite X, wmkdirs_word by exact (proj1 (proj2 Fc)). change (length (wrender (c2 :: b))) with (S (length (c2 ++ wrender b))). cbn [wmkdirs].
    change (wrender (c2 :: b)) with (92 :: c2 ++ wrender b). rewrite !app_assoc, app_nth2, Nat.sub_diag by lia. cbn [nth]. change (92 =? 92) with true. cbv iota.
    rewrite firstn_app, firstn_all, Nat.sub_diag, app_nil_r. rewrite full_add, <- !app_assoc. cbn [app]. f_equal. rewrite !app_length. cbn [length]. rewrite !app_length. cbn [length]. lia.
Qed.

Lemma start_volume v : volume v -> exists w h, v = w ++ h /\ ~ In 92 h /\ forall a, StartVolume (WGetPlatformFilenameInfo (v ++ a)) = length w.
Proof.
  intros [c L|u h U Hh H9 H4].
  - exists p_uni, [c; 58]. split; [reflexivity|]. split; [intros [X|[X|[]]]; [|discriminate X]; subst c; destruct L; lia|].
    intro a. unfold WGetPlatformFilenameInfo. cbn [StartVolume]. replace (starts true s_unc ((p_uni ++ [c; 58]) ++ a)) with false; [reflexivity|].
    cbn. rewrite andb_false_r. reflexivity.
  - exists u, h. split; [reflexivity|]. split; [exact H9|]. intro a. unfold WGetPlatformFilenameInfo. cbn [StartVolume]. rewrite <- app_assoc.
    destruct (unc_starts u (h ++ a) U) as (Lu & _ & _ & _ & ->). symmetry. exact Lu.
Qed.

Lemma to_bs_or_end_word h : forall w r n, ~ In 92 h -> ~ In 0 h -> (length h <= n)%nat -> (hd 0 r = 92 \/ r = []) ->
  to_bs_or_end n (w ++ h ++ r) (length w) = length (w ++ h).
Proof.
  induction h as [|c h IH]; intros w r n H9 H0 Hn Hr.
  - rewrite app_nil_r. cbn [app]. destruct n; [reflexivity|]. cbn [to_bs_or_end]. rewrite app_nth2, Nat.sub_diag by lia.
    destruct Hr as [Hr| ->]; [|reflexivity]. destruct r as [|x r]; [reflexivity|]. cbn [nth]. cbn in Hr. subst x. reflexivity.
  - destruct n as [|n]; [cbn in Hn; lia|]. cbn [to_bs_or_end]. rewrite app_nth2, Nat.sub_diag by lia. cbn [nth app].
    destruct (N.eqb_spec c 0) as [->|_]; [exfalso; apply H0; left; reflexivity|]. destruct (N.eqb_spec c 92) as [->|_]; [exfalso; apply H9; left; reflexivity|]. cbn [orb].
    specialize (IH (w ++ [c]) r n (fun X => H9 (or_intror X)) (fun X => H0 (or_intror X)) ltac:(cbn in Hn; lia) Hr). rewrite <- !app_assoc in IH. cbn [app] in IH.
    rewrite (app_length w [c]) in IH. cbn [length] in IH. rewrite Nat.add_1_r in IH. exact IH.
Qed.

(** ** Conversion to WCHAR *)
Lemma enc16_nz c : c <> 0 -> Forall (fun x => x <> 0) (enc16 c).
Proof. intro H. unfold enc16. destruct (c <? 65536); repeat (apply Forall_cons || apply Forall_nil); try exact H; intro X; apply N.eq_add_0 in X; lia. Qed.

Lemma text16_nz cps : ~ In 0 cps -> ~ In 0 (text enc16 cps).
Proof.
  induction cps as [|c r IH]; intros H X; [exact X|]. change (text enc16 (c :: r)) with (enc16 c ++ text enc16 r) in X. apply in_app_or in X. destruct X as [X|X].
  - pose proof (enc16_nz c (fun Y => H (or_introl Y))) as F. rewrite Forall_forall in F. exact (F 0 X eq_refl).
  - exact (IH (fun Y => H (or_intror Y)) X).
Qed.

Lemma from8_all cps b : good_text cps -> (length (text enc16 cps) + 1 <= length b)%nat ->
  ConvertFromUTF8 Wd2 (text enc8 cps ++ [0]) (Some b) (length b) = Ok (Some (text enc16 cps ++ 0 :: skipn (length (text enc16 cps) + 1) b), (length (text enc16 cps) + 1)%nat).
Proof.
  intros G L. pose proof (good_zeros cps 1 G) as G1. cbn [repeat] in G1.
  assert (E8 : text enc8 (cps ++ [0]) = text enc8 cps ++ [0]) by (rewrite P_WinFile.text_app; reflexivity).
  assert (E16 : text enc16 (cps ++ [0]) = text enc16 cps ++ [0]) by (rewrite P_WinFile.text_app; reflexivity).
  assert (L16 : length (text enc16 (cps ++ [0])) = (length (text enc16 cps) + 1)%nat) by (rewrite E16, app_length; reflexivity).
  destruct (C14_roundtrip Wd2 (cps ++ [0]) (text enc8 (cps ++ [0])) (length (text enc8 (cps ++ [0]))) b (length b) G1) as (lp & _ & E); [split; lia|cbn [encw]; lia|].
  cbn [encw] in E. rewrite E8 in E. etransitivity; [exact E|]. unfold stored. rewrite L16, E16, <- app_assoc. reflexivity.
Qed.
