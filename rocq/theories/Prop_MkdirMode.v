(** C149: recursive Mkdir and its mode (POSIX). *)
From Verif Require Import Base S_Path S_Tree S_Attr S_Secret M_Path M_Dir M_MkdirMode P_Path P_Dir P_MkdirMode Prop_Dir.
From Coq Require Import String Ascii.
Open Scope N_scope.

(** Who made a directory with this mode may make directories in it. *)
Definition enough (u : user) (mask mode : N) : Prop :=
  euid u = 0 \/ (N.testbit mode 7 = true /\ N.testbit mask 7 = false /\ N.testbit mode 6 = true /\ N.testbit mask 6 = false).

(** The place a name leads to. *)
Definition target (sgn : bool) (cwd name : bytes) (p : path) : Prop :=
  p = place cwd (unix name) /\ nice sgn name /\ proper (hd [] (split (unix name))) /\ (List.length cwd + List.length name + 3 <= LIM)%nat /\ (List.length (render p) <= LIM)%nat /\ p <> [].

Lemma enough_may u mask newgroup mode now : enough u mask mode <-> may 0 u (new_dir u mask newgroup mode now) = true /\ may 1 u (new_dir u mask newgroup mode now) = true.
Proof.
  unfold enough. rewrite !may_new by lia. change (6 + 0) with 6. change (6 + 1) with 7. destruct (N.eqb_spec (euid u) 0) as [E|E]; cbn [orb]; [tauto|].
  destruct (N.testbit mode 6), (N.testbit mode 7), (N.testbit mask 6), (N.testbit mask 7); cbn; intuition congruence.
Qed.
Lemma run_loop u mask newgroup mode now sgn cwd g2 g3 gr st name p c b : machine cwd g2 g3 gr -> target sgn cwd name p -> p = c :: b ->
  Forall fname p /\ Mkdir_m u mask newgroup mode now sgn cwd g2 g3 gr st name true = Ok (mk u mask newgroup mode now (loop u mask newgroup mode now st [] c b) p).
Proof.
  intros (G & Cc & Ac & Pc) (Ep & Nn & Pn & Len & Cap & Hp) E.
  assert (Fp : Forall fname p) by (rewrite Ep; apply place_fname; [exact Cc|apply unix_ctext; exact (nice_ctext _ _ Nn)]). split; [exact Fp|].
  unfold Mkdir_m. rewrite absname_at by (try assumption; try (intro d; apply (G d)); rewrite <- Ep; assumption). rewrite <- Ep. cbn [bind]. rewrite <- (mkdirs_loop_m u mask newgroup mode now b [] c st) by (cbn [app]; rewrite <- E; exact Fp). cbn [app].
  rewrite <- (mkdir_mk u mask newgroup mode now _ p Fp). rewrite E. change (after_slash (render (c :: b))) with 1%nat. replace (List.length (render (c :: b)) - 1)%nat with (List.length (c ++ render b)) by (change (render (c :: b)) with (47 :: c ++ render b); cbn [List.length]; lia). reflexivity.
Qed.

(** If the mode lets the maker into the new directories and write there, all missing directories are
    made, with the rights that were asked for, and nothing else changes. *)
Theorem C149_makes : forall u mask newgroup mode now sgn cwd g2 g3 gr st name p, machine cwd g2 g3 gr -> target sgn cwd name p -> fit u st p -> enough u mask mode ->
  exists st', Mkdir_m u mask newgroup mode now sgn cwd g2 g3 gr st name true = Ok (st', match st p with None => true | Some _ => false end) /\
    forall q, (st q <> None -> st' q = st q) /\ (st q = None -> under q p -> st' q = Some (Attrs (euid u) newgroup (N.ldiff (mode mod 512) mask) now now)) /\ (st q = None -> ~ under q p -> st' q = None).
Proof.
  intros u mask newgroup mode now sgn cwd g2 g3 gr st name p Ma Ta F En. apply (enough_may u mask newgroup mode now) in En. destruct En as [M0 M1].
  assert (Hp : p <> []) by apply Ta. destruct p as [|c b] eqn:E; [congruence|]. rewrite <- E in *.
  destruct (run_loop u mask newgroup mode now sgn cwd g2 g3 gr st name p c b Ma Ta E) as [Fp R].
  destruct (loop_made u mask newgroup mode now st p b [] c st F M0 M1 E Fp (made_nil u mask newgroup mode now st (f_root _ _ _ F))) as (y & z & Ez & M).
  destruct (made_add u mask newgroup mode now st p y z [] _ F M0 M1 Ez M) as [M' S]. rewrite <- Ez in M', S.
  eexists. split; [rewrite R, <- S; apply f_equal, surjective_pairing|]. intro q. rewrite M'. split; [|split].
  - destruct (st q); [reflexivity|congruence].
  - intros -> U. destruct (under_dec q p); [reflexivity|contradiction].
  - intros -> U. destruct (under_dec q p); [contradiction|reflexivity].
Qed.

(** If it does not, and two directories or more are missing, the call fails after the first one, for
    every mode and mask, and this one stays. *)
Theorem C149_refuted : forall u mask newgroup mode now sgn cwd g2 g3 gr st name q c d r, machine cwd g2 g3 gr -> target sgn cwd name (q ++ c :: d :: r) -> fit u st (q ++ c :: d :: r) ->
  st q <> None -> st (q ++ [c]) = None -> ~ enough u mask mode ->
  exists st', Mkdir_m u mask newgroup mode now sgn cwd g2 g3 gr st name true = Ok (st', false) /\
    forall x, st' x = if path_dec x (q ++ [c]) then Some (Attrs (euid u) newgroup (N.ldiff (mode mod 512) mask) now now) else st x.
Proof.
  intros u mask newgroup mode now sgn cwd g2 g3 gr st name q c d r Ma Ta F Hq Hc Ne.
  assert (B : may 0 u (new_dir u mask newgroup mode now) = false \/ may 1 u (new_dir u mask newgroup mode now) = false).
  { destruct (may 0 u (new_dir u mask newgroup mode now)) eqn:B0; [|auto]. destruct (may 1 u (new_dir u mask newgroup mode now)) eqn:B1; [|auto]. exfalso. apply Ne, (enough_may u mask newgroup mode now). auto. }
  assert (Ex : forall x, under x q -> st x <> None). { intros x [z Ez] X. apply Hq. rewrite Ez. apply (f_tree _ _ _ F), X. }
  assert (K : mk u mask newgroup mode now st (q ++ [c]) = (set_dir st (q ++ [c]) (new_dir u mask newgroup mode now), true)).
  { unfold mk. assert (R : reach u st [] (q ++ [c]) = true).
    { apply reach_iff. intros x z Eq Hz. cbn [app]. destruct (exists_last Hz) as (z' & l & ->). rewrite app_assoc in Eq. apply app_inj_tail in Eq. destruct Eq as [Eq <-].
      destruct (st x) as [v|] eqn:Ev; [|exfalso; exact (Ex x ltac:(exists z'; exact Eq) Ev)]. exists v. split; [reflexivity|]. destruct z' as [|e z'].
      - apply (f_pass _ _ _ F x c (d :: r) v); [rewrite Eq, app_nil_r; reflexivity|exact Ev].
      - apply (f_pass _ _ _ F x e (z' ++ c :: d :: r) v); [rewrite Eq, <- app_assoc; reflexivity|exact Ev]. }
    rewrite R, removelast_last, Hc. destruct (st q) as [v|] eqn:Ev; [|congruence]. rewrite (f_write _ _ _ F q c (d :: r) v eq_refl Ev Hc). reflexivity. }
  assert (L : forall e b, q ++ c :: d :: r = e :: b -> Forall fname (q ++ c :: d :: r) -> loop u mask newgroup mode now st [] e b = set_dir st (q ++ [c]) (new_dir u mask newgroup mode now)).
  { intros e b Eb Fp. assert (S1 : loop u mask newgroup mode now st q c (d :: r) = set_dir st (q ++ [c]) (new_dir u mask newgroup mode now)).
    { cbn [loop]. rewrite mkdir_mk by (replace (q ++ c :: d :: r) with ((q ++ [c]) ++ d :: r) in Fp by (rewrite <- app_assoc; reflexivity); apply Forall_app in Fp; tauto). rewrite K. cbn [fst].
      apply (loop_stuck u mask newgroup mode now st q c (f_tree _ _ _ F) Hc B r [] d). cbn [app]. exact Fp. }
    destruct q as [|q0 q].
    - cbn [app] in Eb. injection Eb as <- <-. exact S1.
    - cbn [app] in Eb. injection Eb as <- <-. rewrite (loop_exists u mask newgroup mode now st q [] q0 (c :: d :: r)) with (d := c) (b' := d :: r); [exact S1|exact Ex|exact Fp|reflexivity]. }
  destruct (q ++ c :: d :: r) as [|e b] eqn:E; [destruct q; discriminate|]. rewrite <- E in *.
  destruct (run_loop u mask newgroup mode now sgn cwd g2 g3 gr st name _ e b Ma Ta E) as [Fp R]. rewrite (L e b E Fp) in R. rewrite (mk_stuck u mask newgroup mode now st q c (d :: r) (f_tree _ _ _ F) Hc B) in R by discriminate.
  eexists. split; [exact R|]. intro x. reflexivity.
Qed.

(** mkdir -p makes "/a/b" with mode 0500; this does not, but does with 0700. *)
Example C149_ex : let st : dirs := fun p => match p with [] => Some (Attrs 7 7 493 (0, 0) (0, 0)) | _ => None end in let u := User 7 (fun _ => false) in
  (exists st1, Mkdir_m u 18 7 320 (1, 0) true [47] blanks blanks blanks st (chars "/a/b") true = Ok (st1, false) /\ st1 [chars "a"] <> None /\ st1 [chars "a"; chars "b"] = None) /\
  (exists st2, Mkdir_m u 18 7 448 (1, 0) true [47] blanks blanks blanks st (chars "/a/b") true = Ok (st2, true) /\ st2 [chars "a"] = st2 [chars "a"; chars "b"] /\ st2 [chars "a"] <> None).
Proof.
  intros st u. split.
  - eexists. split; [vm_compute; reflexivity|]. split; vm_compute; [discriminate|reflexivity].
  - eexists. split; [vm_compute; reflexivity|]. split; vm_compute; [reflexivity|discriminate].
Qed.

Print Assumptions C149_makes.
Print Assumptions C149_refuted.
