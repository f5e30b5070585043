(** Proofs about M_RmdirFds; [recurse_all] and [rmdir_fds_removes] follow P_Dir. *)
From Verif Require Import Base S_Path S_Tree M_Path M_Dir M_RmdirFds P_Path P_Dir.
Open Scope N_scope.

Lemma under_up p n q : under (p ++ [n]) q -> under p q.
Proof. intros [r ->]. exists (n :: r). rewrite <- app_assoc. reflexivity. Qed.

(** ** Trees stay trees *)
Lemma sound_del t p : sound t -> (forall c, lookup t (p ++ [c]) = None) -> p <> [] -> sound (del t p).
Proof.
  intros [S1 S2] H Hp. split; [intros q k Hk; exact (S1 q k (incl_del _ _ _ Hk))|]. intros q c L. rewrite lookup_del in L by exact Hp. destruct (path_dec p (q ++ [c])); [congruence|]. rewrite lookup_del by exact Hp.
  destruct (path_dec p q) as [->|_]; [rewrite H in L; congruence|exact (S2 q c L)].
Qed.
Lemma children_empty t p : (length (children t p) = 0)%nat -> forall c, lookup t (p ++ [c]) = None.
Proof.
  intros L c. destruct (lookup t (p ++ [c])) as [k|] eqn:E; [|reflexivity]. exfalso. destruct (lookup_in t _ ltac:(rewrite E; discriminate)) as [X|[k2 Hk]]; [destruct (app_ne p c X)|].
  assert (I : In c (children t p)) by (apply children_in; eauto). destruct (children t p); [destruct I|discriminate].
Qed.
Lemma sound_rmdir t d : sound t -> sound (fst (rmdir t d)).
Proof.
  intro S. unfold rmdir. destruct (place_of t d) as [[|x y]|]; try exact S. destruct (lookup t (x :: y)) as [[| |]|]; try exact S. destruct (Nat.eqb_spec (length (children t (x :: y))) 0) as [E|_]; [|exact S].
  cbn [fst]. apply sound_del; [exact S|apply children_empty; exact E|discriminate].
Qed.
Lemma sound_unlink t d : sound t -> sound (fst (unlink t d)).
Proof.
  intro S. unfold unlink. destruct (place_of t d) as [p|]; [|exact S]. destruct (lookup t p) as [k|] eqn:E; [|exact S]. 
  assert (G : k <> KDir -> sound (del t p)). { intro Hk. apply sound_del; [exact S| |intros ->; cbn in E; congruence]. intro c. destruct (lookup t (p ++ [c])) eqn:L; [|reflexivity]. pose proof (proj2 S p c ltac:(rewrite L; discriminate)). congruence. }
  destruct k; cbn [fst]; [apply G; discriminate|apply G; discriminate|exact S].
Qed.

Section Fds.
Variable sgn : bool.
Variable cwd : bytes.
Variables g2 g3 gr : bytes -> bytes.
Hypothesis Lg2 : forall d, length (g2 d) = S LIM.
Hypothesis Lg3 : forall d, length (g3 d) = S LIM.
Hypothesis Zg2 : forall d, nth LIM (g2 d) 0 <> 47.
Hypothesis Ccwd : ctext cwd.
Notation absname := (M_Dir.absname sgn cwd g2 g3 gr).
Notation recurse := (recurse sgn cwd g2 g3 gr).
Notation fine := (fine sgn cwd g2 g3 gr).

(** ** Enough descriptors *)
Lemma recurse_all D fuel : forall t p, sound t -> (forall q k, In (q, k) t -> under p q -> (length q <= D)%nat) -> p <> [] -> Forall fname p ->
  lookup t p = Some KDir -> fine t p -> (D - length p <= fuel)%nat -> (length p <= D)%nat ->
  exists t', recurse fuel t (render p) = Ok t' /\ incl t' t /\ (forall q, below p q -> lookup t' q = None) /\ (forall q, ~ below p q -> lookup t' q = lookup t q).
Proof.
  induction fuel as [|fuel IH]; intros t p So HD Hp0 Fp Lp [F1 F2] Hf Hp.
  { exists t. split; [cbn [M_RmdirFds.recurse]; destruct (_ <=? _)%nat; reflexivity|]. split; [apply incl_refl|]. split; [|reflexivity]. intros q (c & r & ->). destruct (lookup t (p ++ c :: r)) as [k|] eqn:E; [|reflexivity]. exfalso.
    destruct (lookup_in t _ ltac:(rewrite E; discriminate)) as [X|[k2 Hk]]; [destruct p; discriminate|]. specialize (HD _ _ Hk ltac:(exists (c :: r); reflexivity)). rewrite app_length in HD. cbn [length] in HD. lia. }
  cbn [M_RmdirFds.recurse].
  destruct (F1 p ltac:(exists []; rewrite app_nil_r; reflexivity) Lp) as [Ab Ln].
  destruct (Nat.leb_spec (N.to_nat 8190) (length (render p))) as [X|_]; [lia|]. unfold dir_open. rewrite Ab. cbn [bind].
  pose proof (sound_road t p So Lp) as R.
  assert (Pl : place_of t (render p) = Some p).
  { apply place_way; [apply render_ne; exact Hp0|apply components_render; exact Fp|exact Fp|]. intros a b E _. exact (R a b E). }
  unfold opendir. rewrite Pl. cbn [dir_at LINKS]. rewrite Lp.
  set (done := fun (l : list bytes) (q : path) => exists n, In n l /\ under (p ++ [n]) q).
  assert (L : forall names t0 l, Forall listed names -> (forall n, In n names -> fname n -> (length (render p) + 1 + length n <= N.to_nat 8191)%nat) -> Forall fname l ->
    incl t0 t -> (forall q, done l q -> lookup t0 q = None) -> (forall q, ~ done l q -> lookup t0 q = lookup t q) ->
    exists t' l', each_entry (recurse fuel) (render p) names t0 = Ok t' /\ Forall fname l' /\ (forall n, In n l -> In n l') /\ (forall n, In n names -> fname n -> In n l') /\
      incl t' t /\ (forall q, done l' q -> lookup t' q = None) /\ (forall q, ~ done l' q -> lookup t' q = lookup t q)).
  { induction names as [|n names IHn]; intros t0 l Hn Hlen Fl H1 H2 H3.
    { exists t0, l. split; [reflexivity|]. split; [exact Fl|]. split; [auto|]. split; [intros n []|]. auto. }
    cbn [each_entry]. pose proof (Forall_inv Hn) as Ln1. apply Forall_inv_tail in Hn.
    assert (Hlen' : forall m, In m names -> fname m -> (length (render p) + 1 + length m <= N.to_nat 8191)%nat) by (intros m Hm; apply Hlen; right; exact Hm).
    assert (Skip : n = [46] \/ n = [46; 46] -> exists t' l', each_entry (recurse fuel) (render p) names t0 = Ok t' /\ Forall fname l' /\ (forall n, In n l -> In n l') /\
      (forall m, In m (n :: names) -> fname m -> In m l') /\ incl t' t /\ (forall q, done l' q -> lookup t' q = None) /\ (forall q, ~ done l' q -> lookup t' q = lookup t q)).
    { intro Hdot. destruct (IHn t0 l Hn Hlen' Fl H1 H2 H3) as (t' & l' & E & Q1 & Q2 & Q3 & Q4). exists t', l'. split; [exact E|]. split; [exact Q1|]. split; [exact Q2|].
      split; [|exact Q4]. intros m [<-|Hm] Fm; [|exact (Q3 m Hm Fm)]. destruct Fm as (_ & _ & _ & X & Y). destruct Hdot; congruence. }
    assert (Hsz : (length n + 1 <= N.to_nat 8192 - length (render p) - 1)%nat).
    { destruct Ln1 as [-> |[-> |Fn]]; [cbn [length]; lia|cbn [length]; lia|]. specialize (Hlen n (or_introl eq_refl) Fn). lia. }
    destruct (Nat.ltb_spec (N.to_nat 8192 - length (render p) - 1) (length n + 1)) as [X|_]; [lia|].
    destruct (list_eq_dec N.eq_dec n [46]) as [E|N1]; [apply Skip; left; exact E|]. destruct (list_eq_dec N.eq_dec n [46; 46]) as [E|N2]; [apply Skip; right; exact E|]. clear Skip.
    assert (Fn : fname n) by (destruct Ln1 as [X|[X|X]]; [congruence|congruence|exact X]). clear Ln1 N1 N2.
    change slash with 47. rewrite <- render_add. set (d1 := render (p ++ [n])).
    assert (Fp1 : Forall fname (p ++ [n])) by (apply Forall_app; split; [exact Fp|constructor; [exact Fn|constructor]]).
    assert (Ec1 : components d1 = p ++ [n]) by (apply components_render; exact Fp1).
    assert (Hd1 : d1 <> []) by (apply render_ne, app_ne).
    assert (NB : forall q, ~ below p q -> lookup t0 q = lookup t q).
    { intros q Hq. apply H3. intros (m & _ & U). apply Hq. exact (below_child _ _ _ U). }
    assert (P : forall t1, (forall q, ~ below p q -> lookup t1 q = lookup t q) -> place_of t1 d1 = Some (p ++ [n])).
    { intros t1 H. apply place_way; [exact Hd1|exact Ec1|exact Fp1|]. apply road_way. exact (road_same t t1 p R H). }
    (* after this entry *)
    assert (Step : forall t1, incl t1 t0 -> (forall q, under (p ++ [n]) q -> lookup t1 q = None) -> (forall q, ~ under (p ++ [n]) q -> lookup t1 q = lookup t0 q) ->
      exists t' l', each_entry (recurse fuel) (render p) names t1 = Ok t' /\ Forall fname l' /\ (forall n, In n l -> In n l') /\
      (forall m, In m (n :: names) -> fname m -> In m l') /\ incl t' t /\ (forall q, done l' q -> lookup t' q = None) /\ (forall q, ~ done l' q -> lookup t' q = lookup t q)).
    { intros t1 A1 A2 A3. destruct (IHn t1 (n :: l) Hn Hlen' ltac:(constructor; assumption) (incl_tran A1 H1)) as (t' & l' & E & Q1 & Q2 & Q3 & Q4).
      - intros q (m & [<-|Hm] & U); [exact (A2 q U)|]. destruct (under_dec (p ++ [n]) q) as [U2|U2]; [exact (A2 q U2)|]. rewrite A3 by exact U2. apply H2. exists m. auto.
      - intros q Hq. rewrite A3; [apply H3|]; intro X; apply Hq; [destruct X as (m & Hm & U); exists m; split; [right; exact Hm|exact U]|exists n; split; [left; reflexivity|exact X]].
      - exists t', l'. split; [exact E|]. split; [exact Q1|]. split; [intros m Hm; apply Q2; right; exact Hm|]. split; [|exact Q4].
        intros m [<-|Hm] Fm; [apply Q2; left; reflexivity|exact (Q3 m Hm Fm)]. }
    assert (Sub : forall q, lookup t0 q <> None -> lookup t0 q = lookup t q /\ ~ done l q).
    { intros q Hq. assert (X : ~ done l q) by (intro X; exact (Hq (H2 q X))). split; [exact (H3 q X)|exact X]. }
    assert (So0 : sound t0).
    { split; [intros q k Hk; exact (proj1 So q k (H1 _ Hk))|]. intros a c Ha. destruct (Sub _ Ha) as [X1 X2]. rewrite X1 in Ha. rewrite H3; [exact (proj2 So a c Ha)|].
      intros (m & Hm & r & ->). apply X2. exists m. split; [exact Hm|]. exists (r ++ [c]). rewrite app_assoc. reflexivity. }
    unfold lstat. rewrite (P t0 NB). destruct (lookup t0 (p ++ [n])) as [k|] eqn:El.
    2:{ (* not there *)
      apply Step; [apply incl_refl| |reflexivity]. intros q [r ->]. destruct r as [|c r]; [rewrite app_nil_r; exact El|].
      destruct (lookup t0 ((p ++ [n]) ++ c :: r)) eqn:Eq; [|reflexivity]. exfalso.
      pose proof (sound_parent t0 (p ++ [n]) So0 (c :: r) ltac:(rewrite Eq; discriminate) ltac:(discriminate)). congruence. }
    assert (Un : k <> KDir -> exists t' l', each_entry (recurse fuel) (render p) names (fst (unlink t0 d1)) = Ok t' /\ Forall fname l' /\ (forall n, In n l -> In n l') /\
      (forall m, In m (n :: names) -> fname m -> In m l') /\ incl t' t /\ (forall q, done l' q -> lookup t' q = None) /\ (forall q, ~ done l' q -> lookup t' q = lookup t q)).
    { intro Hk. destruct (unlink_at t0 d1 (p ++ [n]) (P t0 NB) (app_ne p n)) as [A1 A2]. apply Step; [exact A1| |].
      - intros q [r ->]. destruct r as [|c r].
        + rewrite app_nil_r. unfold unlink. rewrite (P t0 NB), El. destruct k; try congruence; cbn [fst]; rewrite lookup_del by apply app_ne;
            (destruct (path_dec (p ++ [n]) (p ++ [n])); [reflexivity|congruence]).
        + rewrite A2 by (intro X; apply (f_equal (@length bytes)) in X; rewrite !app_length in X; cbn in X; lia).
          destruct (lookup t0 ((p ++ [n]) ++ c :: r)) eqn:Eq; [|reflexivity]. exfalso.
          pose proof (sound_parent t0 (p ++ [n]) So0 (c :: r) ltac:(rewrite Eq; discriminate) ltac:(discriminate)). congruence.
      - intros q Hq. apply A2. intros ->. apply Hq. exists []. rewrite app_nil_r. reflexivity. }
    destruct k as [|tgt|]; [apply Un; discriminate|apply Un; discriminate|]. clear Un.
    destruct (lookup_in t0 (p ++ [n]) ltac:(rewrite El; discriminate)) as [X|[k Hk]]; [destruct (app_ne p n X)|].
    pose proof (HD _ _ (H1 _ Hk) ltac:(exists [n]; reflexivity)) as Hle. rewrite app_length in Hle. cbn [length] in Hle.
    destruct (IH t0 (p ++ [n]) So0 (fun q k I1 U => HD q k (H1 _ I1) (under_up p n q U)) (app_ne p n) Fp1 El) as (t1 & E1 & B1 & B2 & B3).
    { split.
      - intros q U Lq. destruct (Sub q ltac:(rewrite Lq; discriminate)) as [X _]. apply F1; [|congruence]. destruct U as [r ->]. exists (n :: r). rewrite <- app_assoc. reflexivity.
      - intros q (c & r & ->) Lq. destruct (Sub _ Lq) as [X _]. apply F2; [exists n, (c :: r); rewrite <- app_assoc; reflexivity|congruence]. }
    { rewrite app_length. cbn [length]. lia. }
    { rewrite app_length. cbn [length]. lia. }
    fold d1 in E1. rewrite E1. cbn [bind].
    assert (NB1 : forall q, ~ below p q -> lookup t1 q = lookup t q).
    { intros q Hq. rewrite B3; [apply NB; exact Hq|]. intros (c & r & ->). apply Hq. exists n, (c :: r). rewrite <- app_assoc. reflexivity. }
    assert (L1 : lookup t1 (p ++ [n]) = Some KDir) by (rewrite B3 by apply below_self; exact El).
    assert (Rm : rmdir t1 d1 = (del t1 (p ++ [n]), true)).
    { unfold rmdir. rewrite (P t1 NB1). destruct (p ++ [n]) as [|x y] eqn:Ex; [destruct (app_ne p n Ex)|]. rewrite L1.
      rewrite children_none; [reflexivity|]. intro c. apply B2. exists c, []. reflexivity. }
    rewrite Rm. cbn [fst]. apply Step.
    - exact (incl_tran (incl_del _ _) B1).
    - intros q U. rewrite lookup_del by apply app_ne. destruct (path_dec (p ++ [n]) q) as [_|Hne]; [reflexivity|]. apply B2. destruct U as [[|c r] ->].
      + rewrite app_nil_r in Hne. congruence.
      + exists c, r. reflexivity.
    - intros q U. rewrite lookup_del by apply app_ne. destruct (path_dec (p ++ [n]) q) as [<-|Hne].
      + exfalso. apply U. exists []. rewrite app_nil_r. reflexivity.
      + apply B3. intros (c & r & ->). apply U. exists (c :: r). reflexivity. }
  assert (Hn : Forall listed ([46] :: [46; 46] :: children t p)).
  { constructor; [left; reflexivity|]. constructor; [right; left; reflexivity|]. apply Forall_forall. intros c Hc. apply children_in in Hc. destruct Hc as [k Hk].
    right. right. destruct (proj1 So _ _ Hk) as [_ F]. apply Forall_app in F. exact (Forall_inv (proj2 F)). }
  destruct (L _ t [] Hn) as (t' & l' & E & Q1 & _ & Q3 & Q4 & Q5 & Q6).
  - intros n [<-|[<-|Hc]] Fn; [destruct Fn as (_ & _ & _ & X & _); congruence|destruct Fn as (_ & _ & _ & _ & X); congruence|].
    apply children_in in Hc. destruct Hc as [k Hk]. apply in_entry in Hk. specialize (F2 (p ++ [n])). rewrite render_add, app_length in F2. cbn [length] in F2.
    rewrite <- Nat.add_assoc. apply F2; [exists n, []; reflexivity|]. destruct p; exact Hk.
  - constructor.
  - apply incl_refl.
  - intros q (n & [] & _).
  - reflexivity.
  - exists t'. split; [exact E|]. split; [exact Q4|]. split.
    + intros q (c & r & ->). destruct (lookup t (p ++ c :: r)) as [k|] eqn:Eq.
      * apply Q5. exists c. assert (Hc : lookup t (p ++ [c]) <> None).
        { destruct r as [|c2 r]; [rewrite Eq; discriminate|]. change (p ++ c :: c2 :: r) with (p ++ [c] ++ c2 :: r) in Eq. rewrite app_assoc in Eq.
          rewrite (sound_parent t (p ++ [c]) So (c2 :: r)); [discriminate|rewrite Eq; discriminate|discriminate]. }
        destruct (lookup_in _ _ Hc) as [X|[k2 Hk2]]; [destruct (app_ne p c X)|]. split.
        -- apply Q3; [right; right; apply children_in; exists k2; exact Hk2|]. destruct (proj1 So _ _ Hk2) as [_ F]. apply Forall_app in F. exact (Forall_inv (proj2 F)).
        -- exists r. rewrite <- app_assoc. reflexivity.
      * destruct (lookup t' (p ++ c :: r)) as [k|] eqn:Eq'; [|reflexivity]. exfalso.
        destruct (lookup_in t' (p ++ c :: r) ltac:(rewrite Eq'; discriminate)) as [X|[k2 Hk2]]; [destruct p; discriminate|].
        apply Q4 in Hk2. apply in_entry in Hk2. destruct p; cbn [app lookup] in *; congruence.
    + intros q Hq. apply Q6. intros (n & _ & U). apply Hq. exact (below_child _ _ _ U).
Qed.

Hypothesis Lgr : forall d, length (gr d) = S LIM.
Hypothesis Bg2 : forall d, octets (g2 d).
Hypothesis Bgr : forall d, octets (gr d).
Hypothesis Acwd : absolute cwd.
Hypothesis Pcwd : Forall proper (split cwd).

Lemma rmdir_fds_removes D fuel t name : let p := place cwd (unix name) in
  nice sgn name -> proper (hd [] (split (unix name))) -> (length cwd + length name + 3 <= LIM)%nat ->
  sound t -> (forall q k, In (q, k) t -> under p q -> (length q <= D)%nat) -> (D - length p <= fuel)%nat -> p <> [] -> lookup t p = Some KDir ->
  (forall q, under p q -> lookup t q = Some KDir -> known sgn cwd q) -> (forall q, below p q -> lookup t q <> None -> (length (render q) <= LIM)%nat) ->
  exists t', Rmdir_fds sgn cwd g2 g3 gr fuel t name true = Ok (t', true) /\ (forall q, under p q -> lookup t' q = None) /\ (forall q, ~ under p q -> lookup t' q = lookup t q).
Proof.
  intros p Nn Pn Len So HD Hf Hp Lp Kn Ln. unfold Rmdir_fds.
  assert (Fp : Forall fname p) by (apply place_fname; [exact Ccwd|apply unix_ctext; exact (nice_ctext _ _ Nn)]).
  assert (Kp : known sgn cwd p) by (apply Kn; [exists []; rewrite app_nil_r; reflexivity|exact Lp]). pose proof LIM_val as LV.
  rewrite (absname_at sgn cwd g2 g3 gr) by (assumption || (fold p; destruct Kp as (_ & _ & X); lia)). fold p. cbn [bind].
  pose proof (sound_road t p So Lp) as R.
  assert (Pl : forall t1, (forall q, ~ below p q -> lookup t1 q = lookup t q) -> place_of t1 (render p) = Some p).
  { intros t1 H. apply place_way; [apply render_ne; exact Hp|apply components_render; exact Fp|exact Fp|]. intros a b E _. exact (road_same t t1 p R H a b E). }
  unfold lstat. rewrite (Pl t) by reflexivity. rewrite Lp.
  destruct (lookup_in t p ltac:(rewrite Lp; discriminate)) as [X|[k Hk]]; [congruence|].
  destruct (recurse_all D fuel t p So HD Hp Fp Lp) as (t1 & E1 & I1 & B1 & N1).
  - split.
    + intros q U Lq. pose proof (Kn q U Lq) as Kq. destruct (lookup_in t q ltac:(rewrite Lq; discriminate)) as [->|[kq Hq]].
      * destruct U as [r Er]. destruct p; [congruence|discriminate].
      * destruct (proj1 So q kq Hq) as [Hq1 Hq2]. split; [apply (absname_own sgn cwd g2 g3 gr); assumption|]. destruct Kq as (_ & _ & X). destruct Acwd as [r Er]. rewrite Er in X. cbn [length] in X. lia.
    + intros q Bq Lq. specialize (Ln q Bq Lq). lia.
  - exact Hf.
  - exact (HD p k Hk ltac:(exists []; rewrite app_nil_r; reflexivity)).
  - rewrite E1. cbn [bind]. assert (L1 : lookup t1 p = Some KDir) by (rewrite N1 by apply below_self; exact Lp).
    unfold rmdir. rewrite (Pl t1 N1). destruct p as [|x y] eqn:Ex; [congruence|]. rewrite L1, children_none by (intro c; apply B1; exists c, []; reflexivity). cbn [length Nat.eqb].
    rewrite <- Ex in *. exists (del t1 p). split; [reflexivity|]. split.
    + intros q U. rewrite lookup_del by congruence. destruct (path_dec p q) as [_|Hne]; [reflexivity|]. apply B1. destruct U as [[|c r] ->]; [rewrite app_nil_r in Hne; congruence|exists c, r; reflexivity].
    + intros q U. rewrite lookup_del by congruence. destruct (path_dec p q) as [<-|Hne]; [exfalso; apply U; exists []; rewrite app_nil_r; reflexivity|].
      apply N1. intros (c & r & ->). apply U. exists (c :: r). reflexivity.
Qed.

(** ** Not enough: what lies deeper stays *)
Lemma recurse_deep n : forall t d p, sound t -> ctext d -> leads t d p ->
  exists t', recurse n t d = Ok t' /\ sound t' /\ incl t' t /\ sub t' t /\ (forall q, ~ below p q -> lookup t' q = lookup t q) /\ (forall r, (n < length r)%nat -> lookup t' (p ++ r) = lookup t (p ++ r)).
Proof.
  assert (Same : forall t p m, sound t -> exists t', Ok t = Ok t' /\ sound t' /\ incl t' t /\ sub t' t /\ (forall q, ~ below p q -> lookup t' q = lookup t q) /\ (forall r, (m < length r)%nat -> lookup t' (p ++ r) = lookup t (p ++ r))).
  { intros t p m So. exists t. split; [reflexivity|]. split; [exact So|]. split; [apply incl_refl|]. split; [intro q; right; reflexivity|]. split; reflexivity. }
  induction n as [|n IH]; intros t d p So Cd Ld; cbn [M_RmdirFds.recurse]; (destruct (_ <=? length d)%nat; [apply Same; exact So|]); [apply Same; exact So|].
  unfold dir_open. destruct (absname_total sgn cwd g2 g3 gr Lg2 Lg3 Zg2 Ccwd d Cd) as [o ->]. cbn [bind].
  destruct o as [s|]; cbn [bind]; [|apply Same; exact So]. destruct (opendir t s) as [names|] eqn:Eo; [|apply Same; exact So].
  pose proof (opendir_names t s names (proj1 So) Eo) as Hn. clear Eo.
  assert (L : forall names t0, Forall listed names -> sound t0 -> incl t0 t -> sub t0 t -> (forall q, ~ below p q -> lookup t0 q = lookup t q) -> (forall r, (S n < length r)%nat -> lookup t0 (p ++ r) = lookup t (p ++ r)) ->
    exists t', each_entry (recurse n) d names t0 = Ok t' /\ sound t' /\ incl t' t /\ sub t' t /\ (forall q, ~ below p q -> lookup t' q = lookup t q) /\ (forall r, (S n < length r)%nat -> lookup t' (p ++ r) = lookup t (p ++ r))).
  { clear names Hn. induction names as [|m names IHn]; intros t0 Hn S0 H1 H1' H2 H3; [exists t0; auto 10|]. cbn [each_entry].
    pose proof (Forall_inv Hn) as Ln. apply Forall_inv_tail in Hn.
    destruct (_ <? _)%nat; [exists t0; auto 10|].
    destruct (list_eq_dec N.eq_dec m [46]) as [_|N1]; [apply IHn; assumption|]. destruct (list_eq_dec N.eq_dec m [46; 46]) as [_|N2]; [apply IHn; assumption|].
    assert (Fm : fname m) by (destruct Ln as [X|[X|X]]; [congruence|congruence|exact X]). clear Ln N1 N2.
    change slash with 47. set (d1 := d ++ 47 :: m). assert (Cd1 : ctext d1) by (apply ctext_add; assumption).
    assert (Step : forall t1, sound t1 -> incl t1 t0 -> sub t1 t0 -> (forall q, q <> p ++ [m] -> ~ below (p ++ [m]) q -> lookup t1 q = lookup t0 q) -> (forall r, (n < length r)%nat -> lookup t1 ((p ++ [m]) ++ r) = lookup t0 ((p ++ [m]) ++ r)) ->
      exists t', each_entry (recurse n) d names t1 = Ok t' /\ sound t' /\ incl t' t /\ sub t' t /\ (forall q, ~ below p q -> lookup t' q = lookup t q) /\ (forall r, (S n < length r)%nat -> lookup t' (p ++ r) = lookup t (p ++ r))).
    { intros t1 A0 A1 A2 A3 A4. apply IHn; [exact Hn|exact A0|exact (incl_tran A1 H1)|exact (sub_trans _ _ _ A2 H1')| |].
      - intros q Hq. rewrite A3; [apply H2; exact Hq| |].
        + intros ->. apply Hq. exists m, []. reflexivity.
        + intros (c & r & ->). apply Hq. exists m, (c :: r). rewrite <- app_assoc. reflexivity.
      - intros r Hr. rewrite <- H3 by exact Hr. destruct r as [|c r]; [cbn in Hr; lia|]. cbn [length] in Hr. destruct (list_eq_dec N.eq_dec c m) as [->|Ne].
        + specialize (A4 r ltac:(lia)). rewrite <- app_assoc in A4. exact A4.
        + apply A3; [intro X; apply app_inv_head in X; congruence|]. intros (c' & r' & X). rewrite <- app_assoc in X. apply app_inv_head in X. cbn [app] in X. congruence. }
    unfold lstat. destruct (place_of t0 d1) as [r|] eqn:Ep; [|apply IHn; assumption].
    assert (r = p ++ [m]) by (apply (leads_sub t t0 d p H1' Ld m r Fm); exact Ep). subst r.
    destruct (lookup t0 (p ++ [m])) as [k|] eqn:El; [|apply IHn; assumption].
    assert (Off : forall r, (n < length r)%nat -> (p ++ [m]) ++ r <> p ++ [m]) by (intros r Hr X; apply (f_equal (@length bytes)) in X; rewrite !app_length in X; cbn [length] in X; lia).
    assert (Un : exists t', each_entry (recurse n) d names (fst (unlink t0 d1)) = Ok t' /\ sound t' /\ incl t' t /\ sub t' t /\ (forall q, ~ below p q -> lookup t' q = lookup t q) /\ (forall r, (S n < length r)%nat -> lookup t' (p ++ r) = lookup t (p ++ r))).
    { destruct (unlink_at t0 d1 (p ++ [m]) Ep (app_ne p m)) as [A1 A2]. apply Step; [apply sound_unlink; exact S0|exact A1|apply unlink_sub| |]; [intros q Hq _; exact (A2 q Hq)|intros r Hr; apply A2, Off, Hr]. }
    destruct k as [|tgt|]; [exact Un|exact Un|].
    destruct (IH t0 d1 (p ++ [m]) S0 Cd1) as (t1 & E1 & B0 & B1 & B2 & B3 & B4).
    { apply leads_next; assumption. }
    rewrite E1. cbn [bind]. destruct (place_of t1 d1) as [r|] eqn:Ep1.
    - assert (r = p ++ [m]) by (apply (leads_sub t t1 d p (sub_trans _ _ _ B2 H1') Ld m r Fm); exact Ep1). subst r.
      destruct (rmdir_at t1 d1 (p ++ [m]) Ep1 (app_ne p m)) as [A1 A2].
      apply Step; [apply sound_rmdir; exact B0|exact (incl_tran A1 B1)|exact (sub_trans _ _ _ (rmdir_sub t1 d1) B2)| |].
      + intros q Hq1 Hq2. rewrite A2 by exact Hq1. exact (B3 q Hq2).
      + intros r Hr. rewrite A2 by (apply Off; exact Hr). exact (B4 r Hr).
    - unfold rmdir. rewrite Ep1. cbn [fst]. apply Step; [exact B0|exact B1|exact B2| |exact B4]. intros q _ Hq. exact (B3 q Hq). }
  exact (L names t Hn So (incl_refl t) (fun q => or_intror eq_refl) (fun q _ => eq_refl) (fun r _ => eq_refl)).
Qed.

Lemma rmdir_fds_deep n t name s p r : sound t -> ctext name -> absname name = Ok (Some s) -> place_of t s = Some p -> lookup t p = Some KDir -> (n < length r)%nat -> lookup t (p ++ r) <> None ->
  exists t', Rmdir_fds sgn cwd g2 g3 gr n t name true = Ok (t', false) /\ (forall q, ~ below p q -> lookup t' q = lookup t q) /\ (forall r', (n < length r')%nat -> lookup t' (p ++ r') = lookup t (p ++ r')).
Proof.
  intros So Cn Es Ep Lp Hr Lr. pose proof (absname_ctext sgn cwd g2 g3 gr Lg3 Ccwd Bg2 Bgr name s Cn Es) as Cs. unfold Rmdir_fds. rewrite Es. cbn [bind]. unfold lstat. rewrite Ep, Lp.
  destruct (recurse_deep n t s p So Cs) as (t1 & E1 & S1 & I1 & U1 & N1 & D1).
  { intros m q Fm Er. assert (Eq : components (s ++ 47 :: m) = components s ++ [m]) by (apply components_add; exact Fm).
    unfold place_of in Ep, Er. destruct s as [|x y]; [discriminate|]. cbn [app] in Er, Eq. rewrite Eq in Er.
    destruct (walk_more t LINKS _ [] p m Ep Fm ltac:(rewrite Lp; discriminate)) as [X|X]; congruence. }
  rewrite E1. cbn [bind]. assert (F : rmdir t1 s = (t1, false)).
  { unfold rmdir. destruct (place_of t1 s) as [p1|] eqn:Ep1; [|reflexivity]. pose proof (place_sub t t1 s p1 U1 Ep1) as X. assert (p1 = p) by congruence. subst p1. destruct p as [|x y] eqn:Ex; [reflexivity|]. rewrite <- Ex in *.
    destruct (lookup t1 p) as [[| |]|]; try reflexivity. destruct (Nat.eqb_spec (length (children t1 p)) 0) as [Z|_]; [|reflexivity]. exfalso.
    rewrite <- (D1 r Hr) in Lr. destruct r as [|c r]; [cbn in Hr; lia|]. pose proof (children_empty t1 p Z c) as Hc. destruct r as [|c2 r]; [congruence|].
    replace (p ++ c :: c2 :: r) with ((p ++ [c]) ++ c2 :: r) in Lr by (rewrite <- app_assoc; reflexivity). rewrite (sound_parent t1 (p ++ [c]) S1 (c2 :: r) Lr ltac:(discriminate)) in Hc. discriminate. }
  rewrite F. exists t1. auto.
Qed.
End Fds.
