(** Proofs about M_WinReal. *)
From Verif Require Import Base S_Utf8 M_Utf8 P_Utf8 S_WinPath M_WinPath P_WinPath P_MixedVar P_WinFile P_WinDir S_WinReal M_WinReal.
Open Scope N_scope.

Lemma enc8_no92 c : c <> 92 -> ~ In 92 (enc8 c).
Proof.
  intros H X. unfold enc8 in X. destruct (N.ltb_spec c 128); [destruct X as [X|[]]; exact (H X)|].
  destruct (c <? 2048); [|destruct (c <? 65536)]; cbn [In] in X; repeat (destruct X as [X|X]; [generalize dependent (c / 64); generalize dependent (c / 4096); generalize dependent (c / 262144); intros; try (revert X; match goal with |- ?a + ?b = 92 -> _ => generalize b; intros z X; lia end)|]); exact X.
Qed.

Lemma text8_no92 c : ~ In 92 c -> ~ In 92 (text enc8 c).
Proof.
  induction c as [|x c IH]; intros H X; [exact X|]. change (text enc8 (x :: c)) with (enc8 x ++ text enc8 c) in X. apply in_app_or in X. destruct X as [X|X].
  - exact (enc8_no92 x (fun E => H (or_introl E)) X).
  - exact (IH (fun E => H (or_intror E)) X).
Qed.

Lemma text8_no0 c : ~ In 0 c -> ~ In 0 (text enc8 c).
Proof. intros H X. pose proof (text8_nz c H) as F. rewrite Forall_forall in F. exact (F 0 X eq_refl). Qed.

Lemma enc8_ne c : enc8 c <> [].
Proof. unfold enc8. destruct (c <? 128); [discriminate|]. destruct (c <? 2048); [discriminate|]. destruct (c <? 65536); discriminate. Qed.
Lemma text8_ne c : c <> [] -> text enc8 c <> [].
Proof. destruct c as [|x c]; [congruence|]. intros _ E. change (text enc8 (x :: c)) with (enc8 x ++ text enc8 c) in E. apply app_eq_nil in E. exact (enc8_ne x (proj1 E)). Qed.

Lemma len16 c : (length (enc16 c) <= length (enc8 c))%nat.
Proof. unfold enc16, enc8. destruct (N.ltb_spec c 65536); destruct (N.ltb_spec c 128); destruct (N.ltb_spec c 2048); cbn; lia. Qed.
Lemma text_len16 c : (length (text enc16 c) <= length (text enc8 c))%nat.
Proof. induction c as [|x c IH]; [apply le_n|]. change (text enc8 (x :: c)) with (enc8 x ++ text enc8 c). change (text enc16 (x :: c)) with (enc16 x ++ text enc16 c). rewrite !app_length. pose proof (len16 x). lia. Qed.

Lemma text8_cons a c : text enc8 (a ++ 92 :: c) = text enc8 a ++ 92 :: text enc8 c.
Proof. rewrite text_app. reflexivity. Qed.

Lemma rd_mid (a : bytes) x b : rd (a ++ x :: b) (length a) = Ok x.
Proof. unfold rd. rewrite nth_error_app2, Nat.sub_diag by lia. reflexivity. Qed.

(** ** One component *)
Section Loop.
Variable cap : nat.
Variable find : list N -> option (list N).
Variable gw : list N.
Hypothesis Hgw : length gw = cap.

Lemma skip_one a c r : c <> [] -> ~ In 92 c -> forall n, (1 <= n)%nat -> skip_bs n (a ++ 92 :: c ++ r) (length a) = skip_bs (n - 1) (a ++ 92 :: c ++ r) (S (length a)).
Proof. intros Hc Hn [|n] L; [lia|]. cbn [skip_bs]. rewrite rd_mid. cbn [bind]. change (92 =? bsl) with true. cbv iota. replace (S n - 1)%nat with n by lia. reflexivity. Qed.

Lemma skip_stop a x r n : x <> 92 -> skip_bs n (a ++ x :: r) (length a) = Ok (length a).
Proof. intro H. destruct n; [reflexivity|]. cbn [skip_bs]. rewrite rd_mid. cbn [bind]. unfold bsl. destruct (N.eqb_spec x 92); [contradiction|reflexivity]. Qed.

(** The rest of the text is empty or starts with a backslash; behind it is a NUL. *)
Lemma copy_ok : forall c a r q b z n, ~ In 92 c -> (hd 92 r = 92)%N -> n = length (c ++ r) -> (length b + length c <= cap - 1)%nat -> (length b + length z = cap)%nat ->
  copy_part cap n (a ++ c ++ r ++ q) (length a) (b ++ z) (length b) = Ok (Some (length (a ++ c), (b ++ c) ++ skipn (length c) z, length (b ++ c))).
Proof.
  induction c as [|x c IH]; intros a r q b z n Hc Hr -> L Lz.
  - cbn [app length skipn]. rewrite !app_nil_r. destruct r as [|y r]; [reflexivity|]. cbn [length copy_part]. rewrite <- app_comm_cons, rd_mid. cbn [bind]. cbn in Hr. rewrite Hr. reflexivity.
  - cbn [app length copy_part]. rewrite rd_mid. cbn [bind]. unfold bsl. destruct (N.eqb_spec x 92) as [->|_]; [exfalso; apply Hc; left; reflexivity|].
    cbn [length] in L. destruct (Nat.leb_spec (cap - 1) (length b)); [lia|]. destruct z as [|y z]; [cbn in Lz; lia|]. rewrite wr_mid. cbn [bind].
    specialize (IH (a ++ [x]) r q (b ++ [x]) z (length (c ++ r)) (fun X => Hc (or_intror X)) Hr eq_refl).
    rewrite <- !app_assoc in IH. cbn [app] in IH. rewrite !app_length in IH. cbn [length] in IH. rewrite !Nat.add_1_r in IH. cbn [skipn]. rewrite <- app_assoc. cbn [app]. rewrite (app_length c r).
    etransitivity; [apply IH; [lia|cbn in Lz; lia]|]. f_equal. f_equal. f_equal; [f_equal|]; rewrite ?app_length; cbn [length]; lia.
Qed.

Lemma copy_long : forall c a r q b z n, ~ In 92 c -> n = length (c ++ r) -> (cap - 1 < length b + length c)%nat -> (length b + length z = cap)%nat -> (length b <= cap - 1)%nat ->
  copy_part cap n (a ++ c ++ r ++ q) (length a) (b ++ z) (length b) = Ok None.
Proof.
  induction c as [|x c IH]; intros a r q b z n Hc -> L Lz Lb; [cbn in L; lia|].
  cbn [app length copy_part]. rewrite rd_mid. cbn [bind]. unfold bsl. destruct (N.eqb_spec x 92) as [->|_]; [exfalso; apply Hc; left; reflexivity|].
  cbn [length] in L. destruct (Nat.leb_spec (cap - 1) (length b)); [reflexivity|]. destruct z as [|y z]; [cbn in Lz; lia|]. rewrite wr_mid. cbn [bind].
  specialize (IH (a ++ [x]) r q (b ++ [x]) z (length (c ++ r)) (fun X => Hc (or_intror X)) eq_refl).
  rewrite <- !app_assoc in IH. cbn [app] in IH. rewrite !app_length in IH. cbn [length] in IH. rewrite !Nat.add_1_r in IH. rewrite (app_length c r). apply IH; [lia|cbn in Lz; lia|lia].
Qed.

Variable long : list N -> option (list N).
Hypothesis Hfind : forall p, good_text p -> ~ In 0 p -> find (text enc16 p) = option_map (text enc16) (long p).
Hypothesis Hlong : forall p n, long p = Some n -> part n.

Definition settled (acc : list N) : Prop := acc <> [] /\ good_text acc /\ ~ In 0 acc.

Lemma settled_add acc c : settled acc -> part c -> settled (acc ++ 92 :: c).
Proof.
  intros (A & [G1 G2] & Z) (B & [G3 G4] & Z2 & _). split; [destruct acc; discriminate|]. split.
  - split; [apply Forall_app; split; [exact G1|]; constructor; [|exact G3]; repeat split; try (vm_compute; congruence); intros [X Y]; lia|]. destruct acc; [congruence|exact G2].
  - intro X. apply in_app_or in X. destruct X as [X|[X|X]]; [exact (Z X)|discriminate X|exact (Z2 X)].
Qed.

(** Up to the lookup. *)
Lemma one_part a c r q acc z n : settled acc -> part c -> (hd 92 r = 92)%N ->
  (length (text enc8 acc) + length z = cap)%nat -> (length (text enc8 (acc ++ 92%N :: c)) <= cap - 1)%nat ->
  let f2 := a ++ 92 :: text enc8 c ++ r ++ q in
  let len := length (a ++ 92 :: text enc8 c ++ r) in
  exists z', (length (text enc8 (acc ++ 92%N :: c)) + 1 + length z' = cap)%nat /\
  real_loop cap find gw (S n) f2 len (length a) (text enc8 acc ++ z) (length (text enc8 acc)) =
    match find (text enc16 (acc ++ 92 :: c)) with
    | None => real_loop cap find gw n f2 len (length (a ++ 92 :: text enc8 c)) (text enc8 (acc ++ 92 :: c) ++ 0 :: z') (length (text enc8 (acc ++ 92 :: c)))
    | Some name =>
        let x := S (length (text enc8 acc)) in
        let* (d, y, _) := ConvertToUTF8 Wd2 name (Some (text enc8 c ++ 0 :: z')) (cap - x) in
        match d with
        | None => UB
        | Some t => let* f3 := blit (text enc8 (acc ++ 92 :: c) ++ 0 :: z') x t in real_loop cap find gw n f2 len (length (a ++ 92 :: text enc8 c)) f3 (y + x)
        end
    end.
Proof.
  intros Sa Pc Hr Lz L f2 len. pose proof (settled_add acc c Sa Pc) as Sb. destruct Pc as (Nc & Gc & Zc & Bc). pose proof (text8_no92 c Bc) as B8. pose proof (text8_ne c Nc) as N8.
  rewrite text8_cons in *. set (A := text enc8 acc) in *. set (C := text enc8 c) in *. rewrite app_length in L. cbn [length] in L.
  destruct z as [|z0 z]; [cbn in Lz; lia|]. cbn [length] in Lz. exists (skipn (S (length C)) z). assert (Lz2 : (length C + 1 <= length z)%nat) by lia.
  split; [rewrite app_length, skipn_length; cbn [length]; lia|].
  cbn [real_loop]. unfold len at 1. rewrite app_length. cbn [length]. destruct (Nat.leb_spec (length a + S (length (C ++ r))) (length a)); [lia|].
  destruct (Nat.leb_spec (cap - 1) (length A)); [lia|]. change bsl with 92. rewrite wr_mid. cbn [bind].
  unfold f2, len. rewrite skip_one by (exact N8 || exact B8 || (rewrite app_length; cbn [length]; lia)).
  destruct C as [|c0 C'] eqn:EC; [congruence|]. rewrite <- EC in *.
  assert (Sk : skip_bs (length (a ++ 92 :: C ++ r) - length a - 1) (a ++ 92 :: C ++ r ++ q) (S (length a)) = Ok (S (length a))).
  { replace (a ++ 92 :: C ++ r ++ q) with ((a ++ [92]) ++ c0 :: C' ++ r ++ q) by (rewrite EC, <- app_assoc; reflexivity).
    replace (S (length a)) with (length (a ++ [92])) by (rewrite app_length; cbn; lia). apply skip_stop. intros ->. apply B8. rewrite EC. left. reflexivity. }
  rewrite Sk. cbn [bind].
  assert (Cp : copy_part cap (length (a ++ 92 :: C ++ r) - S (length a)) (a ++ 92 :: C ++ r ++ q) (S (length a)) (A ++ 92 :: z) (S (length A)) = Ok (Some (length (a ++ 92 :: C), (A ++ 92 :: C) ++ skipn (length C) z, length (A ++ 92 :: C)))).
  { pose proof (copy_ok C (a ++ [92]) r q (A ++ [92]) z (length (C ++ r)) B8 Hr eq_refl) as K. rewrite <- !app_assoc in K. cbn [app] in K. rewrite !app_length in K. cbn [length] in K. rewrite !Nat.add_1_r in K.
    specialize (K ltac:(lia) ltac:(lia)). rewrite app_length. cbn [length]. replace (length a + S (length (C ++ r)) - S (length a))%nat with (length (C ++ r)) by lia. rewrite (app_length C r).
    rewrite <- app_assoc. cbn [app]. etransitivity; [exact K|]. f_equal. f_equal. f_equal; [f_equal|]; rewrite ?app_length; cbn [length]; lia. }
  rewrite Cp. cbn [bind]. clear Cp Sk.
  destruct (skipn (length C) z) as [|y z'] eqn:Ez. { apply (f_equal (@length N)) in Ez. rewrite skipn_length in Ez. cbn in Ez. lia. }
  assert (Ez' : z' = skipn (S (length C)) z). { replace (S (length C)) with (1 + length C)%nat by lia. rewrite <- skipn_skipn, Ez. reflexivity. }
  rewrite wr_mid. cbn [bind]. rewrite slice_in by (rewrite !app_length; cbn [length]; lia). cbn [bind skipn].
  replace (firstn (length (A ++ 92 :: C) + 1) ((A ++ 92 :: C) ++ 0 :: z')) with (text enc8 (acc ++ 92 :: c) ++ [0]).
  2: { rewrite text8_cons, Nat.add_1_r, firstn_app. replace (S (length (A ++ 92%N :: C)) - length (A ++ 92%N :: C))%nat with 1%nat by lia. rewrite firstn_all2 by lia. reflexivity. }
  destruct Sb as (_ & Gb & Zb). pose proof (text_len16 (acc ++ 92 :: c)) as L16. rewrite text8_cons, app_length in L16. cbn [length] in L16. fold A C in L16.
  pose proof (from8_all (acc ++ 92 :: c) gw Gb ltac:(rewrite Hgw; lia)) as F. rewrite Hgw in F. rewrite F. cbn [bind].
  rewrite cstr_at by (apply text16_nz; exact Zb). cbn [bind]. destruct (find (text enc16 (acc ++ 92 :: c))) as [name|]; [|rewrite Ez'; reflexivity].
  rewrite slice_in by (rewrite !app_length; cbn [length]; subst z'; rewrite skipn_length; lia). cbn [bind]. cbv zeta.
  replace (firstn (cap - S (length A)) (skipn (S (length A)) ((A ++ 92 :: C) ++ 0 :: z'))) with (C ++ 0 :: skipn (S (length C)) z); [rewrite Ez'; reflexivity|].
  replace (S (length A)) with (length (A ++ [92])) by (rewrite app_length; cbn; lia). replace ((A ++ 92 :: C) ++ 0 :: z') with ((A ++ [92]) ++ C ++ 0 :: z') by (rewrite <- !app_assoc; reflexivity).
  rewrite skipn_app, skipn_all, Nat.sub_diag. cbn [app skipn]. rewrite firstn_all2; [rewrite Ez'; reflexivity|]. rewrite !app_length. cbn [length]. subst z'. rewrite skipn_length. lia.
Qed.

Lemma too_long a c r q acc z n : part c ->
  (length (text enc8 acc) + length z = cap)%nat -> (cap - 1 < length (text enc8 (acc ++ 92%N :: c)))%nat ->
  real_loop cap find gw (S n) (a ++ 92 :: text enc8 c ++ r ++ q) (length (a ++ 92 :: text enc8 c ++ r)) (length a) (text enc8 acc ++ z) (length (text enc8 acc)) = Ok None.
Proof.
  intros (Nc & Gc & Zc & Bc) Lz L. pose proof (text8_no92 c Bc) as B8. pose proof (text8_ne c Nc) as N8.
  rewrite text8_cons, app_length in L. cbn [length] in L. set (A := text enc8 acc) in *. set (C := text enc8 c) in *.
  cbn [real_loop]. rewrite app_length. cbn [length]. destruct (Nat.leb_spec (length a + S (length (C ++ r))) (length a)); [lia|].
  destruct (Nat.leb_spec (cap - 1) (length A)); [reflexivity|]. destruct z as [|z0 z]; [cbn in Lz; lia|]. cbn [length] in Lz. change bsl with 92. rewrite wr_mid. cbn [bind].
  rewrite skip_one by (exact N8 || exact B8 || lia).
  destruct C as [|c0 C'] eqn:EC; [congruence|]. rewrite <- EC in *.
  assert (Sk : skip_bs (length a + S (length (C ++ r)) - length a - 1) (a ++ 92 :: C ++ r ++ q) (S (length a)) = Ok (S (length a))).
  { replace (a ++ 92 :: C ++ r ++ q) with ((a ++ [92]) ++ c0 :: C' ++ r ++ q) by (rewrite EC, <- app_assoc; reflexivity).
    replace (S (length a)) with (length (a ++ [92])) by (rewrite app_length; cbn; lia). apply skip_stop. intros ->. apply B8. rewrite EC. left. reflexivity. }
  rewrite Sk. cbn [bind].
  assert (Cp : copy_part cap (length a + S (length (C ++ r)) - S (length a)) (a ++ 92 :: C ++ r ++ q) (S (length a)) (A ++ 92 :: z) (S (length A)) = Ok None).
  { pose proof (copy_long C (a ++ [92]) r q (A ++ [92]) z (length (C ++ r)) B8 eq_refl) as K. rewrite <- !app_assoc in K. cbn [app] in K. rewrite !app_length in K. cbn [length] in K. rewrite !Nat.add_1_r in K.
    replace (length a + S (length (C ++ r)) - S (length a))%nat with (length (C ++ r)) by lia. rewrite (app_length C r). apply K; lia. }
  rewrite Cp. reflexivity.
Qed.

Lemma stored_blit (b o : bytes) : (length o <= length b)%nat -> length (P_WinFile.stored b o) = length b.
Proof. intro H. unfold P_WinFile.stored. rewrite app_length, skipn_length. lia. Qed.

Lemma blit_part acc c z' (T : bytes) : length (text enc8 c ++ 0 :: z') = (cap - S (length (text enc8 acc)))%nat -> length T = (cap - S (length (text enc8 acc)))%nat ->
  blit ((text enc8 acc ++ 92 :: text enc8 c) ++ 0 :: z') (S (length (text enc8 acc))) T = Ok (text enc8 acc ++ 92 :: T).
Proof.
  rewrite app_length. cbn [length]. intros Lb LT.
  rewrite blit_in by (rewrite !app_length; cbn [length]; lia). f_equal. rewrite (skipn_all2 (n := S (length (text enc8 acc)) + length T)) by (rewrite !app_length; cbn [length]; lia). rewrite app_nil_r.
  rewrite <- app_assoc. cbn [app]. rewrite firstn_app, firstn_all2 by lia. replace (S (length (text enc8 acc)) - length (text enc8 acc))%nat with 1%nat by lia. cbn [firstn]. rewrite <- app_assoc. reflexivity.
Qed.

(** Components [cs], with [R] behind them. *)
Lemma loop_ok : forall cs a R q acc z n, Forall part cs -> (hd 92 R = 92)%N -> settled acc -> (length (text enc8 acc) + length z = cap)%nat -> stays_within long (cap - 1) acc cs -> (length cs <= n)%nat ->
  exists z', (length (text enc8 (long_path long acc cs)) + length z' = cap)%nat /\ settled (long_path long acc cs) /\
  real_loop cap find gw n (a ++ wrender (map (text enc8) cs) ++ R ++ q) (length (a ++ wrender (map (text enc8) cs) ++ R)) (length a) (text enc8 acc ++ z) (length (text enc8 acc)) =
  real_loop cap find gw (n - length cs) (a ++ wrender (map (text enc8) cs) ++ R ++ q) (length (a ++ wrender (map (text enc8) cs) ++ R)) (length (a ++ wrender (map (text enc8) cs)))
    (text enc8 (long_path long acc cs) ++ z') (length (text enc8 (long_path long acc cs))).
Proof.
  induction cs as [|c cs IH]; intros a R q acc z n F HR Sa Lz W Ln.
  - cbn [map wrender flat_map long_path length]. rewrite app_nil_r, Nat.sub_0_r. exists z. split; [exact Lz|]. split; [exact Sa|]. reflexivity.
  - destruct n as [|n]; [cbn in Ln; lia|]. cbn [length] in Ln. pose proof (Forall_inv F) as Pc. apply Forall_inv_tail in F. cbn [stays_within] in W. destruct W as (W1 & W2 & W3).
    assert (Ef : wrender (map (text enc8) (c :: cs)) = 92 :: text enc8 c ++ wrender (map (text enc8) cs)) by reflexivity. rewrite Ef. clear Ef.
    set (R1 := wrender (map (text enc8) cs)) in *. assert (Hr : hd 92 (R1 ++ R) = 92) by (unfold R1; destruct cs; [exact HR|reflexivity]).
    cbn [app length Nat.sub]. rewrite <- !(app_assoc (text enc8 c)), (app_assoc R1 R q).
    destruct (one_part a c (R1 ++ R) q acc z n Sa Pc Hr Lz W1) as (z' & Lz' & E). cbv zeta in E. rewrite E. clear E.
    pose proof (settled_add acc c Sa Pc) as Sb. rewrite Hfind by apply Sb. cbn [long_path]. unfold stored_as in *.
    assert (Ra : a ++ 92 :: text enc8 c ++ (R1 ++ R) ++ q = (a ++ 92 :: text enc8 c) ++ R1 ++ R ++ q) by (rewrite <- !app_assoc; reflexivity).
    assert (Rb : a ++ 92 :: text enc8 c ++ R1 ++ R = (a ++ 92 :: text enc8 c) ++ R1 ++ R) by (rewrite <- !app_assoc; reflexivity).
    assert (Rc : a ++ 92 :: text enc8 c ++ R1 = (a ++ 92 :: text enc8 c) ++ R1) by (rewrite <- !app_assoc; reflexivity). rewrite Ra, Rb, Rc.
    destruct (long (acc ++ 92 :: c)) as [name|] eqn:El; cbn [option_map].
    + pose proof (Hlong _ _ El) as Pn. cbv zeta. rewrite !text8_cons in *. rewrite app_length in W2, W1, Lz'. cbn [length] in W2, W1, Lz'.
      destruct (to8_all name (text enc8 c ++ 0 :: z') (proj1 (proj2 Pn))) as (lp & Ev); [rewrite app_length; cbn [length]; lia|].
      assert (Lb : length (text enc8 c ++ 0 :: z') = (cap - S (length (text enc8 acc)))%nat) by (rewrite app_length; cbn [length]; lia).
      rewrite Lb in Ev.
      match goal with |- context [ConvertToUTF8 ?p1 ?p2 ?p3 ?p4] => replace (ConvertToUTF8 p1 p2 p3 p4) with (Ok (Some (P_WinFile.stored (text enc8 c ++ 0 :: z') (text enc8 name)), length (text enc8 name), lp)) by (symmetry; exact Ev) end.
      cbn [bind]. set (T := P_WinFile.stored (text enc8 c ++ 0 :: z') (text enc8 name)).
      assert (LT : length T = (cap - S (length (text enc8 acc)))%nat) by (unfold T; rewrite stored_blit; [exact Lb|lia]).
      rewrite (blit_part acc c z' T Lb LT). cbn [bind]. unfold T, P_WinFile.stored. set (zz := skipn (length (text enc8 name)) (text enc8 c ++ 0 :: z')).
      assert (Lzz : (length (text enc8 (acc ++ 92%N :: name)) + length zz = cap)%nat) by (unfold zz; rewrite text8_cons, app_length, skipn_length, Lb; cbn [length]; lia).
      destruct (IH (a ++ 92 :: text enc8 c) R q (acc ++ 92 :: name) zz n F HR (settled_add acc name Sa Pn) Lzz W3 ltac:(lia)) as (z2 & L2 & S2 & E2).
      exists z2. split; [exact L2|]. split; [exact S2|]. rewrite <- E2. rewrite text8_cons, <- !app_assoc. cbn [app]. f_equal. rewrite !app_length. cbn [length]. lia.
    + assert (Lz2 : (length (text enc8 (acc ++ 92%N :: c)) + length (0%N :: z') = cap)%nat) by (cbn [length]; lia).
      destruct (IH (a ++ 92 :: text enc8 c) R q (acc ++ 92 :: c) (0 :: z') n F HR Sb Lz2 W3 ltac:(lia)) as (z2 & L2 & S2 & E2).
      exists z2. split; [exact L2|]. split; [exact S2|]. exact E2.
Qed.

(** A long name of ASCII characters that does not fit fills the array. *)
Lemma keeps_ascii room : forall n out o, keeps enc8 (Some room) out n o -> Forall (fun c => 0 < c < 128) n -> (length out <= room)%nat -> o = out ++ firstn (room - length out) n.
Proof.
  intros n out o K. induction K as [out|out cp r o A K IH|out cp r o A K IH]; intros F L.
  - rewrite firstn_nil, app_nil_r. reflexivity.
  - pose proof (Forall_inv F) as Hc. cbn beta in Hc. assert (E : enc8 cp = [cp]) by (unfold enc8; destruct (N.ltb_spec cp 128); [reflexivity|lia]).
    destruct A as (_ & _ & A). cbn [fits] in A. rewrite E in *. cbn [length] in A. rewrite IH by (exact (Forall_inv_tail F) || (rewrite app_length; cbn [length]; lia)).
    rewrite app_length. cbn [length]. destruct (room - length out)%nat as [|k] eqn:Q; [lia|]. replace (room - (length out + 1))%nat with k by lia. rewrite <- app_assoc. reflexivity.
  - rewrite IH by (exact (Forall_inv_tail F) || exact L). destruct (room - length out)%nat as [|k] eqn:Q; [reflexivity|]. exfalso. apply A. pose proof (Forall_inv F) as Hc. cbn beta in Hc.
    split; [unfold allowed; rewrite N.mod_small by lia; lia|]. split; [intros _; unfold combining; lia|]. unfold enc8. destruct (N.ltb_spec cp 128); [cbn [fits length]; lia|lia].
Qed.

Lemma ascii16 n : Forall (fun c => 0 < c < 128) n -> text enc16 n = n.
Proof. induction 1 as [|c n H _ IH]; [reflexivity|]. change (text enc16 (c :: n)) with (enc16 c ++ text enc16 n). rewrite IH. unfold enc16. destruct (N.ltb_spec c 65536); [reflexivity|lia]. Qed.

Lemma last_grows a c q acc z n name : settled acc -> part c -> (length (text enc8 acc) + length z = cap)%nat -> (length (text enc8 (acc ++ 92%N :: c)) <= cap - 1)%nat ->
  long (acc ++ 92 :: c) = Some name -> Forall (fun c => 0 < c < 128) name -> (cap <= length (text enc8 acc) + 1 + length name)%nat ->
  exists f3, length f3 = cap /\
  real_loop cap find gw (S n) (a ++ 92 :: text enc8 c ++ [] ++ q) (length (a ++ 92 :: text enc8 c ++ [])) (length a) (text enc8 acc ++ z) (length (text enc8 acc)) = Ok (Some (f3, cap)).
Proof.
  intros Sa Pc Lz W El As Lg. destruct (one_part a c [] q acc z n Sa Pc eq_refl Lz W) as (z' & Lz' & E). cbv zeta in E. rewrite E. clear E.
  pose proof (settled_add acc c Sa Pc) as Sb. rewrite Hfind, El by apply Sb. cbn [option_map]. rewrite ascii16 by exact As. rewrite text8_cons in *. rewrite app_length in W, Lz'. cbn [length] in W, Lz'.
  assert (Lb : length (text enc8 c ++ 0 :: z') = (cap - S (length (text enc8 acc)))%nat) by (rewrite app_length; cbn [length]; lia).
  destruct (convert_spec Wd2 name name (Some (text enc8 c ++ 0 :: z')) (cap - S (length (text enc8 acc)))) as (o & lp & Ev & K).
  { cbn. rewrite Lb. apply le_n. }
  { cbn [scans]. rewrite <- (ascii16 name As) at 1. apply scan16_text. eapply Forall_impl; [|exact As]. cbv beta. intros x Hx. unfold allowed. rewrite N.mod_small by lia. lia. }
  cbn [capof] in K. apply keeps_ascii in K; [|exact As|cbn; lia]. cbn [app length] in K. rewrite Nat.sub_0_r in K.
  assert (Lo : length o = (cap - S (length (text enc8 acc)))%nat) by (rewrite K, firstn_length; lia).
  match goal with |- context [ConvertToUTF8 ?p1 ?p2 ?p3 ?p4] => replace (ConvertToUTF8 p1 p2 p3 p4) with (Ok (rep (Some (text enc8 c ++ 0 :: z')) o, length o, lp)) by (symmetry; exact Ev) end.
  cbn [bind rep]. set (T := o ++ skipn (length o) (text enc8 c ++ 0 :: z')).
  assert (LT : length T = (cap - S (length (text enc8 acc)))%nat) by (unfold T; rewrite app_length, skipn_length, Lb, Lo; lia).
  rewrite (blit_part acc c z' T Lb LT). cbn [bind]. rewrite Lo. replace (cap - S (length (text enc8 acc)) + S (length (text enc8 acc)))%nat with cap by lia.
  exists (text enc8 acc ++ 92 :: T). split; [rewrite app_length; cbn [length]; lia|]. rewrite app_nil_r. destruct n; cbn [real_loop]; rewrite Nat.leb_refl; reflexivity.
Qed.
End Loop.
