(** C142: recursive Mkdir in several processes at once. *)
From Verif Require Import Base S_Path S_Tree S_MkdirRace M_Path M_Dir M_MkdirRace P_MixedVar P_Path P_Dir P_MkdirRace Prop_Dir.
From Coq Require Import String.
Open Scope N_scope.

(** One round at a time and undisturbed, it is the Mkdir of C75. *)
Theorem C142_alone : forall sgn cwd g2 g3 gr t name recursive,
  match Mkdir_p sgn cwd g2 g3 gr name recursive with
  | Ok pr => exists n t' ok, mrounds n t pr = (t', MEnd ok) /\ Mkdir sgn cwd g2 g3 gr t name recursive = Ok (t', ok)
  | UB => Mkdir sgn cwd g2 g3 gr t name recursive = UB
  | Fuel => Mkdir sgn cwd g2 g3 gr t name recursive = Fuel
  end.
Proof.
  intros. unfold Mkdir_p, Mkdir. destruct (absname sgn cwd g2 g3 gr name) as [[d|]| |]; cbn [bind]; [|exists O, t, false; split; reflexivity|reflexivity|reflexivity].
  destruct recursive.
  - exists (S (List.length d - after_slash d)). do 2 eexists. split; [apply rounds_all, after_len|]. f_equal. apply surjective_pairing.
  - exists (S (List.length d - List.length d)). do 2 eexists. split; [apply rounds_all, Nat.le_refl|]. rewrite Nat.sub_diag. cbn [mkdirs]. f_equal. apply surjective_pairing.
Qed.

(** For every tree and name, links and files in the way or not: whatever exists stays, and only
    directories are new. *)
Theorem C142_keeps : forall t pr t' pr', madvance t pr = Some (t', pr') ->
  forall q, lookup t' q = lookup t q \/ (lookup t q = None /\ lookup t' q = Some KDir).
Proof.
  intros t [d x|b] t' pr' H q; cbn [madvance] in H; [|discriminate]. destruct (x <? List.length d)%nat; injection H as <- <-; [destruct (nth x d 0 =? slash)|]; try apply mkdir_lookup. left. reflexivity.
Qed.

(** The processes call Mkdir with these names; on the ways there is nothing but directories. *)
Definition callers sgn cwd g2 g3 gr (t : tree) (names : list bytes) (ps : list mproc) : Prop :=
  machine cwd g2 g3 gr /\ Forall2 (fun name pr => Mkdir_p sgn cwd g2 g3 gr name true = Ok pr) names ps /\
  forall name, In name names -> let p := place cwd (unix name) in
    nice sgn name /\ proper (hd [] (split (unix name))) /\ (List.length cwd + List.length name + 3 <= LIM)%nat /\ (List.length (render p) <= LIM)%nat /\ p <> [] /\
    forall x, under x p -> lookup t x = None \/ lookup t x = Some KDir.
(** The places that are on one of the ways. *)
Definition on_way cwd (names : list bytes) (q : path) : Prop := exists name, In name names /\ under q (place cwd (unix name)).

Lemma callers_good sgn cwd g2 g3 gr t names ps : callers sgn cwd g2 g3 gr t names ps -> let tops := map (fun n => place cwd (unix n)) names in
  (forall p, In p tops -> p <> [] /\ Forall fname p) /\ good tops t t ps /\ List.length ps = List.length tops /\ (forall q, wanted tops q <-> on_way cwd names q).
Proof.
  intros ((G & Cc & Ac & Pc) & F & H) tops.
  assert (W : forall q, wanted tops q <-> on_way cwd names q).
  { intro q. split; [intros (p & I & U); apply in_map_iff in I; destruct I as (n & <- & I); exists n; auto|intros (n & I & U); exists (place cwd (unix n)); split; [apply in_map_iff; exists n; auto|exact U]]. }
  assert (At : forall i p pr, nth_error tops i = Some p -> nth_error ps i = Some pr -> pr = MAt (render p) 1).
  { intros i p pr Ep Ei. unfold tops in Ep. rewrite nth_error_map in Ep. destruct (nth_error names i) as [n|] eqn:En; [|discriminate]. injection Ep as <-.
    assert (E : Mkdir_p sgn cwd g2 g3 gr n true = Ok pr).
    { revert i En Ei. clear -F. induction F as [|a b la lb E F IH]; intros i En Ei; destruct i; try discriminate; cbn in *; [congruence|eauto]. }
    destruct (H n (nth_error_In _ _ En)) as (Nn & Pn & Len & Cap & Hp & _). unfold Mkdir_p in E. rewrite absname_at in E by (assumption || (intro d; apply (G d))). cbn [bind] in E.
    destruct (place cwd (unix n)) as [|c b]; [congruence|]. injection E as <-. reflexivity. }
  split; [|split; [|split; [|exact W]]].
  - intros p I. apply in_map_iff in I. destruct I as (n & <- & I). destruct (H n I) as (Nn & Pn & Len & Cap & Hp & _). split; [exact Hp|].
    apply place_fname; [exact Cc|apply unix_ctext; exact (nice_ctext _ _ Nn)].
  - constructor.
    + intros q X. apply W in X. destruct X as (n & I & U). apply (H n I). exact U.
    + reflexivity.
    + intros i p pr Ep Ei. rewrite (At i p pr Ep Ei). cbn [doing]. split; [reflexivity|]. split; [lia|]. intros a b _ _ L.
      destruct a as [|c a]; [reflexivity|]. change (render (c :: a)) with (47 :: c ++ render a) in L. cbn [List.length] in L. lia.
    + intros i p Ep Ei. pose proof (At i p _ Ep Ei). discriminate.
    + intros i j p Ep _ Ei. pose proof (At i p _ Ep Ei). discriminate.
  - unfold tops. rewrite map_length. clear -F. induction F; cbn; congruence.
Qed.

(** Whatever the order, and whatever others create meanwhile: each round of a process makes at most
    one directory, on the way of that process, where nothing was. *)
Theorem C142_only_way : forall sgn cwd g2 g3 gr t0 names ps0 other t ps i name pr t' pr',
  callers sgn cwd g2 g3 gr t0 names ps0 -> growing (on_way cwd names) other -> mrun other (t0, ps0) (t, ps) ->
  nth_error names i = Some name -> nth_error ps i = Some pr -> madvance t pr = Some (t', pr') ->
  forall q, lookup t' q = lookup t q \/ (lookup t q = None /\ lookup t' q = Some KDir /\ under q (place cwd (unix name))).
Proof.
  intros sgn cwd g2 g3 gr t0 names ps0 other t ps i name pr t' pr' H Gr R En Ei A q. destruct (callers_good _ _ _ _ _ _ _ _ H) as (Tp & G0 & Len & W).
  assert (G : good (map (fun n => place cwd (unix n)) names) t0 t ps).
  { apply (mrun_good _ Tp other t0 ps0) with (y := (t, ps)); try assumption. intros u u' O x. destruct (Gr u u' O x) as [X|(X & Y)]; [left; exact X|right; split; [exact X|]]. intro Z. apply Y, W, Z. }
  assert (Ep : nth_error (map (fun n => place cwd (unix n)) names) i = Some (place cwd (unix name))) by (rewrite nth_error_map, En; reflexivity).
  destruct (Tp _ (nth_error_In _ _ Ep)) as (Hp & Fp).
  destruct (round t (place cwd (unix name)) pr t' pr' Hp Fp) as (_ & C & _); [intros x U; apply (g_want _ _ _ _ G); eapply in_wanted; eauto|eapply g_do; eauto|exact A|].
  destruct (C q) as [X|(X & Y & Z & _)]; auto.
Qed.

(** A process that has returned finds its directory and all those on the way. *)
Theorem C142_made : forall sgn cwd g2 g3 gr t0 names ps0 other t ps i name ok,
  callers sgn cwd g2 g3 gr t0 names ps0 -> growing (on_way cwd names) other -> mrun other (t0, ps0) (t, ps) ->
  nth_error names i = Some name -> nth_error ps i = Some (MEnd ok) ->
  forall q, under q (place cwd (unix name)) -> lookup t q = Some KDir.
Proof.
  intros sgn cwd g2 g3 gr t0 names ps0 other t ps i name ok H Gr R En Ei q [r U]. destruct (callers_good _ _ _ _ _ _ _ _ H) as (Tp & G0 & Len & W).
  assert (G : good (map (fun n => place cwd (unix n)) names) t0 t ps).
  { apply (mrun_good _ Tp other t0 ps0) with (y := (t, ps)); try assumption. intros u u' O x. destruct (Gr u u' O x) as [X|(X & Y)]; [left; exact X|right; split; [exact X|]]. intro Z. apply Y, W, Z. }
  assert (Ep : nth_error (map (fun n => place cwd (unix n)) names) i = Some (place cwd (unix name))) by (rewrite nth_error_map, En; reflexivity).
  exact (g_do _ _ _ _ G i _ _ Ep Ei q r U).
Qed.

(** True is returned only for a directory that was not there, and to one process only. *)
Theorem C142_one : forall sgn cwd g2 g3 gr t0 names ps0 other t ps i name,
  callers sgn cwd g2 g3 gr t0 names ps0 -> growing (on_way cwd names) other -> mrun other (t0, ps0) (t, ps) ->
  nth_error names i = Some name -> nth_error ps i = Some (MEnd true) ->
  lookup t0 (place cwd (unix name)) = None /\
  forall j name', nth_error names j = Some name' -> nth_error ps j = Some (MEnd true) -> place cwd (unix name') = place cwd (unix name) -> j = i.
Proof.
  intros sgn cwd g2 g3 gr t0 names ps0 other t ps i name H Gr R En Ei. destruct (callers_good _ _ _ _ _ _ _ _ H) as (Tp & G0 & Len & W).
  assert (G : good (map (fun n => place cwd (unix n)) names) t0 t ps).
  { apply (mrun_good _ Tp other t0 ps0) with (y := (t, ps)); try assumption. intros u u' O x. destruct (Gr u u' O x) as [X|(X & Y)]; [left; exact X|right; split; [exact X|]]. intro Z. apply Y, W, Z. }
  assert (Ep : forall k n, nth_error names k = Some n -> nth_error (map (fun n => place cwd (unix n)) names) k = Some (place cwd (unix n))) by (intros k n E; rewrite nth_error_map, E; reflexivity).
  split; [exact (g_new _ _ _ _ G i _ (Ep i name En) Ei)|]. intros j name' Ej Xj Same. pose proof (Ep j name' Ej) as E'. rewrite Same in E'.
  exact (g_one _ _ _ _ G j i _ E' (Ep i name En) Xj Ei).
Qed.

(** If nobody else is there and nobody wants a directory below it, one of the processes that made
    a missing directory has returned true as soon as one of them has returned. *)
Theorem C142_winner : forall sgn cwd g2 g3 gr t0 names ps0 t ps i name ok,
  callers sgn cwd g2 g3 gr t0 names ps0 -> mrun nobody (t0, ps0) (t, ps) ->
  nth_error names i = Some name -> nth_error ps i = Some (MEnd ok) -> let p := place cwd (unix name) in lookup t0 p = None ->
  (forall name' c r, In name' names -> place cwd (unix name') <> p ++ c :: r) ->
  exists j name', nth_error names j = Some name' /\ place cwd (unix name') = p /\ nth_error ps j = Some (MEnd true).
Proof.
  intros sgn cwd g2 g3 gr t0 names ps0 t ps i name ok H R En Ei p L0 Below. destruct (callers_good _ _ _ _ _ _ _ _ H) as (Tp & G0 & Len & W).
  assert (L1 : lookup t p = Some KDir).
  { apply (C142_made sgn cwd g2 g3 gr t0 names ps0 nobody t ps i name ok H); try assumption; [intros ? ? []|exists []; rewrite app_nil_r; reflexivity]. }
  pose proof (mrun_made _ Tp t0 ps0 G0 Len (t, ps) R) as Mb. cbn [fst snd] in Mb. destruct (Mb p) as [(j & Ej & Xj)|(j & c & r & Ej)]; [congruence| |]; rewrite nth_error_map in Ej;
    destruct (nth_error names j) as [n|] eqn:En'; try discriminate; injection Ej as Ej.
  - exists j, n. auto.
  - exfalso. exact (Below n c r (nth_error_In _ _ En') Ej).
Qed.

Lemma two_callers sgn : callers sgn (chars "/") blanks blanks blanks [] [chars "/a"; chars "/a/b"] [MAt (chars "/a") 1; MAt (chars "/a/b") 1].
Proof.
  split; [|split].
  - split; [intro d; repeat split; try (vm_compute; reflexivity); try (apply Forall_forall; intros x X; apply repeat_spec in X; subst; lia); vm_compute; discriminate|].
    split; [repeat constructor|]. split; [exists []; reflexivity|]. repeat (constructor; [split; discriminate|]). constructor.
  - repeat constructor; destruct sgn; vm_compute; reflexivity.
  - intros n [<-|[<-|[]]]; cbv zeta; (split; [split; [discriminate|]; split; [match goal with |- S_Utf8.wf_utf8 ?l => exists l; split; [apply ascii_good|symmetry; apply text_ascii]; repeat constructor end|]; split; [repeat constructor; discriminate|intros _; repeat constructor]|]); (split; [split; discriminate|]); (split; [vm_compute; lia|]); (split; [vm_compute; lia|]);
      (split; [discriminate|]); intros [|x l] _; ((right; reflexivity) || (left; reflexivity)).
Qed.

(** A call for a directory that was not there may return false: another process has made it on its
    way to one below. *)
Theorem C142_false_refuted : forall sgn, exists names ps0 t ps,
  callers sgn (chars "/") blanks blanks blanks [] names ps0 /\ mrun nobody ([], ps0) (t, ps) /\
  nth_error names 0 = Some (chars "/a") /\ nth_error ps 0 = Some (MEnd false).
Proof.
  intro sgn. exists [chars "/a"; chars "/a/b"], [MAt (chars "/a") 1; MAt (chars "/a/b") 1].
  exists [([chars "a"; chars "b"], KDir); ([chars "a"], KDir)], [MEnd false; MEnd true]. split; [apply two_callers|]. split; [|split; reflexivity].
  eapply (sched_run _ _ [0; 1; 1; 1; 0; 1]%nat); [apply mr_nil|vm_compute; reflexivity].
Qed.

(** If others remove empty directories, a recursive call may return false without having made the
    directory, although nothing stood in its way. *)
Theorem C142_removed_refuted : forall sgn, exists names ps0 t ps,
  callers sgn (chars "/") blanks blanks blanks [] names ps0 /\ mrun removing ([], ps0) (t, ps) /\
  nth_error names 1 = Some (chars "/a/b") /\ nth_error ps 1 = Some (MEnd false) /\ forall q, q <> [] -> lookup t q = None.
Proof.
  intro sgn. exists [chars "/a"; chars "/a/b"], [MAt (chars "/a") 1; MAt (chars "/a/b") 1].
  exists [], [MAt (chars "/a") 1; MEnd false]. split; [apply two_callers|]. split; [|split; [reflexivity|split; [reflexivity|intros [|c q] X; [congruence|reflexivity]]]].
  apply (sched_run _ _ [1; 1]%nat [] [MAt (chars "/a") 1; MAt (chars "/a/b") 3]); [|vm_compute; reflexivity].
  apply (mr_other _ _ [([chars "a"], KDir)] _ []); [|exists (chars "/a"); vm_compute; reflexivity].
  eapply (sched_run _ _ [1; 1]%nat); [apply mr_nil|vm_compute; reflexivity].
Qed.

(** Three processes, two of them with the same directory. *)
Example C142_ex :
  let start := [MAt (chars "/d/a") 1; MAt (chars "/d/a") 1; MAt (chars "/d/b") 1] in
  Mkdir_p true (chars "/d") blanks blanks blanks (chars "a") true = Ok (MAt (chars "/d/a") 1) /\
  sched [0; 0; 1; 1; 2; 2; 2; 2; 1; 1; 0; 0]%nat [] start =
    Some ([([chars "d"; chars "a"], KDir); ([chars "d"; chars "b"], KDir); ([chars "d"], KDir)], [MEnd false; MEnd true; MEnd true]) /\
  sched [0; 0; 0; 0; 1; 1; 2; 2; 2; 2; 1; 1]%nat [] start =
    Some ([([chars "d"; chars "b"], KDir); ([chars "d"; chars "a"], KDir); ([chars "d"], KDir)], [MEnd true; MEnd false; MEnd true]).
Proof. vm_compute. repeat split; reflexivity. Qed.

Print Assumptions C142_alone.
Print Assumptions C142_keeps.
Print Assumptions C142_only_way.
Print Assumptions C142_made.
Print Assumptions C142_one.
Print Assumptions C142_winner.
Print Assumptions C142_false_refuted.
Print Assumptions C142_removed_refuted.
