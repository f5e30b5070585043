(** C141: a recursive Rmdir among other processes removes nothing outside of its directory. *)
From Verif Require Import Base S_Path S_Tree S_DirRace M_Path M_Dir M_DirRace P_Path P_Dir P_DirRace Prop_Dir.
From Coq Require Import String.
Open Scope N_scope.

(** One system call at a time and undisturbed, it is the Rmdir of C59. *)
Theorem C141_alone : forall sgn cwd g2 g3 gr fuel t name recursive,
  alone t (Rmdir_p sgn cwd g2 g3 gr fuel name recursive) = Rmdir sgn cwd g2 g3 gr fuel t name recursive.
Proof. apply alone_rmdir. Qed.

(** Whatever the others do at whatever moment, as long as they make no links on the way to the
    directory or inside of it: each system call of Rmdir changes at most things under it. *)
Theorem C141_only_below : forall sgn cwd g2 g3 gr fuel name recursive other t0 t c t' c', machine cwd g2 g3 gr -> let p := place cwd (unix name) in
  nice sgn name -> proper (hd [] (split (unix name))) -> (List.length cwd + List.length name + 3 <= LIM)%nat -> (List.length (render p) <= LIM)%nat -> p <> [] ->
  names_ok t0 -> (forall a b g, p = a ++ b -> b <> [] -> lookup t0 a <> Some (KLink g)) -> calm p other ->
  rrun other (t0, Rmdir_p sgn cwd g2 g3 gr fuel name recursive) (t, c) -> own (t, c) (t', c') ->
  forall q, lookup t' q <> lookup t q -> under p q.
Proof.
  intros sgn cwd g2 g3 gr fuel name recursive other t0 t c t' c' (G & Cc & Ac & Pc) p Nn Pn Len Cap Hp K0 A0 Calm R St.
  assert (Fp : Forall fname p) by (apply place_fname; [exact Cc|apply unix_ctext; exact (nice_ctext _ _ Nn)]).
  set (NL := fun a : path => exists b, b <> [] /\ p = a ++ b).
  assert (I0 : Inv p t0 NL).
  { split; [exact K0|]. intros a (b & B & E). split; [left; exists b; exact E|]. intro g. apply (A0 a b g E B). }
  assert (Sp : spot p NL p).
  { split; [exists []; now rewrite app_nil_r|]. split; [exact Hp|]. split; [exact Fp|]. intros a b E _ B. exists b. auto. }
  assert (S0 : Safe p (Rmdir_p sgn cwd g2 g3 gr fuel name recursive) NL).
  { unfold Rmdir_p. rewrite absname_at by (assumption || (intro d; apply (G d))). fold p. cbv zeta.
    assert (Lst : forall NL' : path -> Prop, (forall x, NL x -> NL' x) -> Safe p (CRmdir (render p) (fun b => CDone b)) NL').
    { intros NL' H. cbn [Safe]. exists p. split; [reflexivity|]. split; [eapply spot_more; eauto|]. intros _. exact I. }
    destruct recursive; [|apply Lst; auto]. cbn [Safe]. exists p. split; [reflexivity|]. split; [exact Sp|].
    intros [[|g|]|]; cbn [seen]; try (apply Lst; auto);
      (apply recurse_safe; [eapply spot_more; [|exact Sp]; auto|auto|apply Lst; auto]). }
  destruct (rrun_ok p other _ _ Calm R NL I0 S0) as (NL' & I' & S'). cbn [fst snd] in *.
  exact (proj2 (own_ok p _ _ _ _ _ I' S' St)).
Qed.

(** Processes that may only change what is inside of the directory can make Rmdir remove files
    anywhere: between lstat and opendir a directory inside is replaced by a link. *)
Theorem C141_race_refuted : forall sgn, exists t0 x t c t' c', sound t0 /\
  lookup t0 [chars "d"] = Some KDir /\ (forall q g, lookup t0 q <> Some (KLink g)) /\
  rrun (inside [chars "d"]) (t0, Rmdir_p sgn (chars "/") blanks blanks blanks 9 (chars "/d") true) (t, c) /\ own (t, c) (t', c') /\
  ~ under [chars "d"] x /\ lookup t x = Some KFile /\ lookup t' x = None.
Proof.
  intro sgn.
  set (t0 := [([chars "d"], KDir); ([chars "d"; chars "a"], KDir); ([chars "x"], KDir); ([chars "x"; chars "f"], KFile)] : tree).
  set (t1 := [([chars "d"], KDir); ([chars "d"; chars "a"], KLink [chars "x"]); ([chars "x"], KDir); ([chars "x"; chars "f"], KFile)] : tree).
  assert (W : match nexts 3 (t0, Rmdir_p sgn (chars "/") blanks blanks blanks 9 (chars "/d") true) with
    | Some (t, c) => t = t0 /\ match nexts 2 (t1, c) with
        | Some (t2, c2) => t2 = t1 /\ match next (t2, c2) with Some (t3, c3) => lookup t2 [chars "x"; chars "f"] = Some KFile /\ lookup t3 [chars "x"; chars "f"] = None | None => False end
        | None => False end
    | None => False end) by (destruct sgn; vm_compute; repeat split; reflexivity).
  revert W. destruct (nexts 3 (t0, Rmdir_p sgn (chars "/") blanks blanks blanks 9 (chars "/d") true)) as [[ta ca]|] eqn:E1; [|intros []]. intros [-> W].
  revert W. destruct (nexts 2 (t1, ca)) as [[tb cb]|] eqn:E2; [|intros []]. intros [-> W].
  revert W. destruct (next (t1, cb)) as [[tc cc]|] eqn:E3; [|intros []]. intros [W1 W2].
  assert (Ok0 : names_ok t0 /\ names_ok t1).
  { split; intros p k H; cbn in H; repeat (destruct H as [H|H]; [injection H as <- <-|]); try contradiction;
      (split; [discriminate|]); repeat constructor; try discriminate; cbn; intuition lia || (intuition discriminate). }
  exists t0, [chars "x"; chars "f"], t1, cb, tc, cc. split; [|split; [reflexivity|split; [|split; [|split; [|split; [|split]]]]]].
  - split; [apply Ok0|]. intros p c H. destruct p as [|a p]; [reflexivity|].
    unfold lookup in H. cbn [app] in H. destruct (entry t0 (a :: p ++ [c])) as [k|] eqn:E; [|congruence]. apply entry_in in E. cbn in E.
    repeat (destruct E as [E|E]; [injection E as ? E1' ?; try (destruct p as [|? [|? ?]]; discriminate); subst; destruct p as [|b p]; cbn in E1'; try discriminate; try (injection E1' as ? E1'); try (destruct p; discriminate); vm_compute; reflexivity|]). contradiction.
  - intros q g H. destruct q as [|a q]; [discriminate|]. unfold lookup in H. apply entry_in in H. cbn in H. repeat (destruct H as [H|H]; [discriminate|]). contradiction.
  - eapply nexts_run; [|exact E2]. eapply rr_other; [eapply nexts_run; [apply rr_nil|exact E1]|]. split; [apply Ok0|].
    intros q Hq. destruct q as [|a q]; [reflexivity|]. unfold lookup, t0, t1. cbn [entry].
    destruct (path_dec [chars "d"] (a :: q)); [reflexivity|]. destruct (path_dec [chars "d"; chars "a"] (a :: q)) as [X|]; [|reflexivity].
    exfalso. apply (Hq (chars "a") []). symmetry. exact X.
  - apply next_own. exact E3.
  - intros [r X]. discriminate.
  - exact W1.
  - exact W2.
Qed.

(** While Rmdir is at work, another process removes a file and makes a directory. *)
Example C141_ex :
  let t0 := [([chars "d"], KDir); ([chars "d"; chars "a"], KDir); ([chars "d"; chars "a"; chars "f"], KFile); ([chars "x"], KDir)] in
  let t1 := [([chars "d"], KDir); ([chars "d"; chars "a"], KDir); ([chars "x"], KDir); ([chars "d"; chars "b"], KDir)] in
  match nexts 4 (t0, Rmdir_p true (chars "/") blanks blanks blanks 9 (chars "/d") true) with
  | Some (t, c) => t = t0 /\ alone t1 c = Ok ([([chars "d"], KDir); ([chars "x"], KDir); ([chars "d"; chars "b"], KDir)], false) /\ alone t0 c = Ok ([([chars "x"], KDir)], true)
  | None => False
  end.
Proof. vm_compute. repeat split; reflexivity. Qed.

Print Assumptions C141_alone.
Print Assumptions C141_only_below.
Print Assumptions C141_race_refuted.
