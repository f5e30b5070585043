(** Proofs about M_WinLinks. *)
From Verif Require Import Base S_Utf8 M_Utf8 P_Utf8 S_Path S_WinPath M_Path M_WinPath P_WinPath Prop_WinPath P_MixedVar P_WinFile P_WinDir P_WinAbs Prop_WinAbs M_WinFile Prop_WinFile S_WinReal M_WinReal P_WinReal M_WinLinks.
Open Scope N_scope.
Notation length := List.length.

(** ** It ends *)

Lemma skip_adv : forall n f sp r, skip_bs n f sp = Ok r -> (sp <= r <= sp + n)%nat /\ ((r < sp + n)%nat -> exists c, rd f r = Ok c /\ c <> bsl).
Proof.
  induction n as [|n IH]; intros f sp r E; cbn [skip_bs] in E; [injection E as <-; split; lia|].
  destruct (rd f sp) as [c| |] eqn:R; try discriminate. cbn [bind] in E. destruct (N.eqb_spec c bsl).
  - apply IH in E. destruct E as [E1 E2]. split; [lia|]. intro L. apply E2. lia.
  - injection E as <-. split; [lia|]. intros _. eauto.
Qed.

Lemma copy_adv cap : forall n f sp f3 x2 r f3' x2', copy_part cap n f sp f3 x2 = Ok (Some (r, f3', x2')) ->
  (sp <= r <= sp + n)%nat /\ ((0 < n)%nat -> (exists c, rd f sp = Ok c /\ c <> bsl) -> (sp < r)%nat).
Proof.
  induction n as [|n IH]; intros f sp f3 x2 r f3' x2' E; cbn [copy_part] in E; [injection E as <- _ _; split; lia|].
  destruct (rd f sp) as [c| |] eqn:R; try discriminate. cbn [bind] in E. destruct (N.eqb_spec c bsl).
  - injection E as <- _ _. split; [lia|]. intros _ (d & D & N0). congruence.
  - destruct (_ <=? _)%nat; [discriminate|]. destruct (wr f3 x2 c); try discriminate. cbn [bind] in E. apply IH in E. split; [lia|]. intros. lia.
Qed.

Lemma bind_ok A B (x : res A) (f : A -> res B) b : bind x f = Ok b -> exists a, x = Ok a /\ f a = Ok b.
Proof. destruct x; try discriminate. eauto. Qed.
Ltac obind H := apply bind_ok in H; let a := fresh "a" in let E := fresh "E" in destruct H as (a & E & H).

Section Ends.
Variable cap : nat.
Variable find : list N -> option entry.
Variable gw : list N.
Variables ga gb g4 : bytes.
Variable sgn : bool.
Variable vol : bytes -> option N.
Notation step := (real_step cap find gw ga gb g4 sgn vol).

(** What is left to do: links that may still be followed, and the rest of the name. *)
Definition left (st : state) : nat := ((20 - s_links st) * S cap + (s_len st - s_sp st))%nat.
Definition fine (st : state) : Prop := length (s_f2 st) = cap /\ (s_len st < cap)%nat /\ (s_links st <= 20)%nat.

Lemma wr_length (b : bytes) i x b' : wr b i x = Ok b' -> length b' = length b.
Proof. unfold wr. destruct (_ <? _)%nat; [|discriminate]. intro E. injection E as <-. apply upd_length. Qed.
Lemma blit_fit (b : bytes) i s b' : blit b i s = Ok b' -> (i + length s <= length b)%nat /\ length b' = length b.
Proof.
  intro E. split.
  - unfold blit in E. destruct (Nat.leb_spec (i + length s) (length b)); [assumption|discriminate].
  - eapply blit_length. exact E.
Qed.

Lemma follow_less r f2 len sp f3 links st' : follow cap ga gb g4 sgn vol r f2 len sp f3 links = Ok (Next st') -> length f2 = cap ->
  length (s_f2 st') = cap /\ (s_len st' < cap)%nat /\ s_links st' = links.
Proof.
  intros E L. unfold follow in E. obind E. obind E. destruct a0 as [[d y] z]. destruct d as [f4|]; [|discriminate].
  obind E. obind E. obind E. obind E. destruct a3 as [f3' ok]. destruct ok; cbn [negb] in E; [|discriminate].
  obind E. obind E. destruct (_ <? _)%nat in E; [discriminate|]. obind E. obind E. obind E. obind E.
  destruct (starts false s_uni a7) eqn:U; cbn [negb] in E; [|discriminate]. obind E. injection E as <-. cbn [s_f2 s_len s_links].
  apply wr_length in E3. assert (La : length a3 = length a1) by (destruct (sp <? len)%nat; [eapply wr_length; exact E6|injection E6 as <-; reflexivity]).
  apply blit_fit in E11. destruct E11 as [F1 F2]. rewrite app_length in F1. cbn [length] in F1. repeat split; lia.
Qed.

Lemma step_less st st' : fine st -> step st = Ok (Next st') -> fine st' /\ (left st' < left st)%nat.
Proof.
  intros (F1 & F2 & F3) E. unfold real_step in E. destruct (Nat.leb_spec (s_len st) (s_sp st)) as [|L]; [discriminate|].
  destruct (_ <=? _)%nat in E; [discriminate|]. obind E. obind E. obind E.
  destruct a1 as [[[sp f3] x2]|]; [|discriminate].
  apply skip_adv in E1. destruct E1 as [S1 S2]. apply copy_adv in E2. destruct E2 as [C1 C2].
  assert (P : (s_sp st < sp <= s_len st)%nat).
  { destruct (Nat.eq_dec a0 (s_len st)) as [->|N0]; [lia|]. specialize (S2 ltac:(lia)). specialize (C2 ltac:(lia) S2). lia. }
  clear S1 S2 C1 C2. obind E. obind E. obind E. destruct a3 as [d y]. destruct d as [w|]; [|discriminate]. obind E.
  destruct (find a3) as [e|].
  2:{ injection E as <-. unfold fine, left. cbn [s_f2 s_len s_sp s_links]. repeat split; lia. }
  assert (X : forall k o, (let* room := slice a1 (S (s_x2 st)) (cap - S (s_x2 st)) in
      let* (d, y0, _) := ConvertToUTF8 Wd2 (stored_name e) (Some room) (cap - S (s_x2 st)) in
      match d with None => UB | Some t => let* f3 := blit a1 (S (s_x2 st)) t in
        Ok (Next {| s_f2 := s_f2 st; s_len := s_len st; s_sp := sp; s_f3 := f3; s_x2 := y0 + S (s_x2 st); s_links := k |}) end) = Ok (Next o) ->
      (s_links st <= k <= 20)%nat -> fine o /\ (left o < left st)%nat).
  { intros k o H K. obind H. obind H. destruct a5 as [[d y0] z]. destruct d as [t|]; [|discriminate]. obind H. injection H as <-.
    unfold fine, left. cbn [s_f2 s_len s_sp s_links]. repeat split; try lia.
    assert ((20 - k) * S cap <= (20 - s_links st) * S cap)%nat by (apply Nat.mul_le_mono_r; lia). lia. }
  cbv zeta in E. destruct (link e) as [o|]; [|apply (X (s_links st)); [exact E|lia]].
  destruct (Nat.ltb_spec 20 (S (s_links st))) as [|L20]; [discriminate|].
  destruct o as [r|]; [|apply (X (S (s_links st))); [exact E|lia]].
  apply follow_less in E; [|exact F1]. destruct E as (Q1 & Q2 & E9). unfold fine, left. rewrite E9. repeat split; try lia.
  replace (20 - s_links st)%nat with (S (20 - S (s_links st))) by lia. cbn [Nat.mul]. lia.
Qed.

(** [k] rounds that were not the last. *)
Inductive after : nat -> state -> state -> Prop :=
| after_0 st : after 0 st st
| after_S k st st1 st2 : step st = Ok (Next st1) -> after k st1 st2 -> after (S k) st st2.

Lemma after_less k st st' : after k st st' -> fine st -> fine st' /\ (k + left st' <= left st)%nat.
Proof.
  induction 1 as [st|k st st1 st2 E A IH]; intro F; [split; [exact F|lia]|].
  destruct (step_less _ _ F E) as [F1 L1]. destruct (IH F1) as [F2 L2]. split; [exact F2|]. lia.
Qed.

Lemma rounds_more : forall n m st, fine st -> (left st < n)%nat -> (n <= m)%nat ->
  rounds cap find gw ga gb g4 sgn vol n st = rounds cap find gw ga gb g4 sgn vol m st.
Proof.
  induction n as [|n IH]; intros m st F L M; [lia|]. destruct m as [|m]; [lia|]. cbn [rounds].
  destruct (step st) as [[o|st1]| |] eqn:E; try reflexivity. cbn [bind].
  destruct (step_less _ _ F E) as [F1 L1]. apply IH; [exact F1|lia|lia].
Qed.
End Ends.

(** ** Without links it is what C102 is about *)
Definition plain_find (find : list N -> option (list N)) (w : list N) : option entry :=
  option_map (fun n => {| stored_name := n; link := None |}) (find w).

Lemma rounds_plain cap find gw ga gb g4 sgn vol : forall n m f2 len sp f3 x2 k, (len - sp <= n)%nat -> (n < m)%nat ->
  rounds cap (plain_find find) gw ga gb g4 sgn vol m {| s_f2 := f2; s_len := len; s_sp := sp; s_f3 := f3; s_x2 := x2; s_links := k |} =
  real_loop cap find gw n f2 len sp f3 x2.
Proof.
  induction n as [|n IH]; intros [|m] f2 len sp f3 x2 k L M; try lia.
  - cbn [rounds real_loop]. unfold real_step. cbn [s_f2 s_len s_sp s_f3 s_x2 s_links]. destruct (Nat.leb_spec len sp); [reflexivity|lia].
  - cbn [rounds real_loop]. unfold real_step. cbn [s_f2 s_len s_sp s_f3 s_x2 s_links]. destruct (Nat.leb_spec len sp); [reflexivity|].
    destruct (cap - 1 <=? x2)%nat; [reflexivity|]. destruct (wr f3 x2 bsl) as [f3a| |]; try reflexivity. cbn [bind].
    destruct (skip_bs (len - sp) f2 sp) as [sp1| |] eqn:E1; try reflexivity. cbn [bind].
    destruct (copy_part cap (len - sp1) f2 sp1 f3a (S x2)) as [[[[sp2 f3b] x2b]|]| |] eqn:E2; try reflexivity. cbn [bind].
    apply skip_adv in E1. destruct E1 as [S1 S2]. apply copy_adv in E2. destruct E2 as [C1 C2].
    assert (P : (sp < sp2)%nat).
    { destruct (Nat.eq_dec sp1 len) as [->|N0]; [lia|]. specialize (S2 ltac:(lia)). specialize (C2 ltac:(lia) S2). lia. }
    destruct (wr f3b x2b 0) as [f3c| |]; try reflexivity. cbn [bind]. destruct (slice f3c 0 (x2b + 1)) as [s| |]; try reflexivity. cbn [bind].
    destruct (ConvertFromUTF8 Wd2 s (Some gw) cap) as [[[w|] y]| |]; try reflexivity. cbn [bind].
    destruct (cstr w) as [u| |]; try reflexivity. cbn [bind]. unfold plain_find at 1. destruct (find u) as [nm|]; cbn [option_map bind link stored_name].
    + destruct (slice f3c (S x2) (cap - S x2)) as [room| |]; try reflexivity. cbn [bind].
      destruct (ConvertToUTF8 Wd2 nm (Some room) (cap - S x2)) as [[[[t|] y0] z]| |]; try reflexivity. cbn [bind].
      destruct (blit f3c (S x2) t) as [f3d| |]; try reflexivity. cbn [bind]. apply IH; lia.
    + apply IH; lia.
Qed.


(** ** One component *)
Section Step.
Variable cap : nat.
Variable find : list N -> option entry.
Variable gw : list N.
Variables ga gb g4 : bytes.
Variable sgn : bool.
Variable vol : bytes -> option N.
Hypothesis Hgw : length gw = cap.
Notation step := (real_step cap find gw ga gb g4 sgn vol).
Notation settled_add := (settled_add cap gw Hgw).
Notation skip_one := (skip_one cap gw Hgw).
Notation copy_ok := (copy_ok cap gw Hgw).
Notation blit_part := (blit_part cap gw Hgw).
Notation stored_blit := (stored_blit cap gw Hgw).

(** Up to the lookup. *)
Lemma step_part a c r q acc z links : settled acc -> part c -> (hd 92 r = 92)%N ->
  (length (text enc8 acc) + length z = cap)%nat -> (length (text enc8 (acc ++ 92%N :: c)) <= cap - 1)%nat ->
  let f2 := a ++ 92 :: text enc8 c ++ r ++ q in
  let len := length (a ++ 92 :: text enc8 c ++ r) in
  exists z', (length (text enc8 (acc ++ 92%N :: c)) + 1 + length z' = cap)%nat /\
  step {| s_f2 := f2; s_len := len; s_sp := length a; s_f3 := text enc8 acc ++ z; s_x2 := length (text enc8 acc); s_links := links |} =
    let f3 := text enc8 (acc ++ 92 :: c) ++ 0 :: z' in
    let sp := length (a ++ 92 :: text enc8 c) in
    match find (text enc16 (acc ++ 92 :: c)) with
    | None => Ok (Next {| s_f2 := f2; s_len := len; s_sp := sp; s_f3 := f3; s_x2 := length (text enc8 (acc ++ 92 :: c)); s_links := links |})
    | Some e =>
        let x := S (length (text enc8 acc)) in
        let exchange n :=
          let* (d, y, _) := ConvertToUTF8 Wd2 (stored_name e) (Some (text enc8 c ++ 0 :: z')) (cap - x) in
          match d with
          | None => UB
          | Some t => let* f3 := blit f3 x t in Ok (Next {| s_f2 := f2; s_len := len; s_sp := sp; s_f3 := f3; s_x2 := y + x; s_links := n |})
          end in
        match link e with
        | None => exchange links
        | Some o => if (20 <? S links)%nat then Ok (Stop None)
                    else match o with Some r => follow cap ga gb g4 sgn vol r f2 len sp f3 (S links) | None => exchange (S links) end
        end
    end.
Proof.
  intros Sa Pc Hr Lz L f2 len. pose proof (settled_add acc c Sa Pc) as Sb. destruct Pc as (Nc & Gc & Zc & Bc). pose proof (text8_no92 c Bc) as B8. pose proof (text8_ne c Nc) as N8.
  rewrite text8_cons in *. set (A := text enc8 acc) in *. set (C := text enc8 c) in *. rewrite app_length in L. cbn [length] in L.
  destruct z as [|z0 z]; [cbn in Lz; lia|]. cbn [length] in Lz. exists (skipn (S (length C)) z). assert (Lz2 : (length C + 1 <= length z)%nat) by lia.
  split; [rewrite app_length, skipn_length; cbn [length]; lia|].
  unfold real_step. cbn [s_f2 s_len s_sp s_f3 s_x2 s_links]. unfold len at 1. rewrite app_length. cbn [length]. destruct (Nat.leb_spec (length a + S (length (C ++ r))) (length a)); [lia|].
  destruct (Nat.leb_spec (cap - 1) (length A)); [lia|]. change bsl with 92. rewrite wr_mid. cbn [bind].
  unfold f2, len. rewrite (skip_one) by (exact N8 || exact B8 || (rewrite app_length; cbn [length]; lia)).
  destruct C as [|c0 C'] eqn:EC; [congruence|]. rewrite <- EC in *.
  assert (Sk : skip_bs (length (a ++ 92 :: C ++ r) - length a - 1) (a ++ 92 :: C ++ r ++ q) (S (length a)) = Ok (S (length a))).
  { replace (a ++ 92 :: C ++ r ++ q) with ((a ++ [92]) ++ c0 :: C' ++ r ++ q) by (rewrite EC, <- app_assoc; reflexivity).
    replace (S (length a)) with (length (a ++ [92])) by (rewrite app_length; cbn; lia). apply skip_stop. intros ->. apply B8. rewrite EC. left. reflexivity. }
  rewrite Sk. cbn [bind].
  assert (Cp : copy_part cap (length (a ++ 92 :: C ++ r) - S (length a)) (a ++ 92 :: C ++ r ++ q) (S (length a)) (A ++ 92 :: z) (S (length A)) = Ok (Some (length (a ++ 92 :: C), (A ++ 92 :: C) ++ skipn (length C) z, length (A ++ 92 :: C)))).
  { pose proof (copy_ok C (a ++ [92]) r q (A ++ [92]) z (length (C ++ r)) B8 Hr eq_refl) as K. rewrite <- !app_assoc in K. cbn [app] in K. rewrite !app_length in K. cbn [length] in K. rewrite !Nat.add_1_r in K.
    specialize (K ltac:(lia) ltac:(lia)). rewrite app_length. cbn [length]. replace (length a + S (length (C ++ r)) - S (length a))%nat with (length (C ++ r)) by lia. rewrite (app_length C r).
    rewrite <- app_assoc. cbn [app]. etransitivity; [exact K|]. f_equal. f_equal. f_equal; [f_equal|]; rewrite ?app_length; cbn [length]; lia. }
  rewrite Cp. cbn [bind]. clear Cp Sk.
  destruct (skipn (length C) z) as [|y z'] eqn:Ez. { apply (f_equal (@length N)) in Ez. rewrite skipn_length in Ez. cbn in Ez. lia. }
  assert (Ez' : z' = skipn (S (length C)) z). { replace (S (length C)) with (1 + length C)%nat by lia. rewrite <- skipn_skipn, Ez. reflexivity. }
  rewrite wr_mid. cbn [bind]. rewrite slice_in by (rewrite !app_length; cbn [length]; lia). cbn [bind skipn].
  replace (firstn (length (A ++ 92 :: C) + 1) ((A ++ 92 :: C) ++ 0 :: z')) with (text enc8 (acc ++ 92 :: c) ++ [0]).
  2: { rewrite text8_cons, Nat.add_1_r, firstn_app. replace (S (length (A ++ 92%N :: C)) - length (A ++ 92%N :: C))%nat with 1%nat by lia. rewrite firstn_all2 by lia. reflexivity. }
  destruct Sb as (_ & Gb & Zb). pose proof (text_len16 (acc ++ 92 :: c)) as L16. rewrite text8_cons, app_length in L16. cbn [length] in L16. fold A C in L16.
  pose proof (from8_all (acc ++ 92 :: c) gw Gb ltac:(rewrite Hgw; lia)) as F. rewrite Hgw in F. rewrite F. cbn [bind].
  rewrite cstr_at by (apply text16_nz; exact Zb). cbn [bind]. destruct (find (text enc16 (acc ++ 92 :: c))) as [e|]; [|rewrite Ez'; reflexivity].
  rewrite slice_in by (rewrite !app_length; cbn [length]; subst z'; rewrite skipn_length; lia). cbn [bind]. cbv zeta.
  replace (firstn (cap - S (length A)) (skipn (S (length A)) ((A ++ 92 :: C) ++ 0 :: z'))) with (C ++ 0 :: skipn (S (length C)) z); [rewrite Ez'; reflexivity|].
  replace (S (length A)) with (length (A ++ [92])) by (rewrite app_length; cbn; lia). replace ((A ++ 92 :: C) ++ 0 :: z') with ((A ++ [92]) ++ C ++ 0 :: z') by (rewrite <- !app_assoc; reflexivity).
  rewrite skipn_app, skipn_all, Nat.sub_diag. cbn [app skipn]. rewrite firstn_all2; [rewrite Ez'; reflexivity|]. rewrite !app_length. cbn [length]. subst z'. rewrite skipn_length. lia.
Qed.



(** ** Components that are no links *)
Variable long : list N -> option (list N).
Hypothesis Hlong : forall p n, long p = Some n -> part n.

Fixpoint clear_way (acc : list N) (cs : list (list N)) : Prop :=
  match cs with
  | [] => True
  | c :: r => find (text enc16 (acc ++ 92 :: c)) = option_map (fun n => {| stored_name := text enc16 n; link := None |}) (long (acc ++ 92 :: c)) /\
              clear_way (acc ++ 92 :: stored_as long acc c) r
  end.

Lemma way_ok : forall cs a R q acc z k, Forall part cs -> (hd 92 R = 92)%N -> settled acc -> (length (text enc8 acc) + length z = cap)%nat ->
  stays_within long (cap - 1) acc cs -> clear_way acc cs ->
  exists z', (length (text enc8 (long_path long acc cs)) + length z' = cap)%nat /\ settled (long_path long acc cs) /\
  let f2 := a ++ wrender (map (text enc8) cs) ++ R ++ q in
  let len := length (a ++ wrender (map (text enc8) cs) ++ R) in
  after cap find gw ga gb g4 sgn vol (length cs)
    {| s_f2 := f2; s_len := len; s_sp := length a; s_f3 := text enc8 acc ++ z; s_x2 := length (text enc8 acc); s_links := k |}
    {| s_f2 := f2; s_len := len; s_sp := length (a ++ wrender (map (text enc8) cs)); s_f3 := text enc8 (long_path long acc cs) ++ z';
       s_x2 := length (text enc8 (long_path long acc cs)); s_links := k |}.
Proof.
  induction cs as [|c cs IH]; intros a R q acc z k F HR Sa Lz W CW; cbv zeta in *.
  - cbn [map wrender flat_map long_path length]. rewrite app_nil_r. exists z. split; [exact Lz|]. split; [exact Sa|]. constructor.
  - pose proof (Forall_inv F) as Pc. apply Forall_inv_tail in F. cbn [stays_within] in W. destruct W as (W1 & W2 & W3). cbn [clear_way] in CW. destruct CW as [C1 C2].
    assert (Ef : wrender (map (text enc8) (c :: cs)) = 92 :: text enc8 c ++ wrender (map (text enc8) cs)) by reflexivity. rewrite Ef. clear Ef.
    set (R1 := wrender (map (text enc8) cs)) in *. assert (Hr : hd 92 (R1 ++ R) = 92) by (unfold R1; destruct cs; [exact HR|reflexivity]).
    cbn [app length]. rewrite <- !(app_assoc (text enc8 c)), (app_assoc R1 R q).
    destruct (step_part a c (R1 ++ R) q acc z k Sa Pc Hr Lz W1) as (z' & Lz' & E). cbv zeta in E.
    pose proof (settled_add acc c Sa Pc) as Sb. rewrite C1 in E. cbn [long_path]. unfold stored_as in *.
    assert (Ra : a ++ 92 :: text enc8 c ++ (R1 ++ R) ++ q = (a ++ 92 :: text enc8 c) ++ R1 ++ R ++ q) by (rewrite <- !app_assoc; reflexivity).
    assert (Rb : a ++ 92 :: text enc8 c ++ R1 ++ R = (a ++ 92 :: text enc8 c) ++ R1 ++ R) by (rewrite <- !app_assoc; reflexivity).
    assert (Rc : a ++ 92 :: text enc8 c ++ R1 = (a ++ 92 :: text enc8 c) ++ R1) by (rewrite <- !app_assoc; reflexivity). rewrite Ra, Rb in *. rewrite Rc.
    destruct (long (acc ++ 92 :: c)) as [name|] eqn:El; cbn [option_map link stored_name] in E.
    + pose proof (Hlong _ _ El) as Pn. cbv zeta in E. rewrite !text8_cons in *. rewrite app_length in W2, W1, Lz'. cbn [length] in W2, W1, Lz'.
      destruct (to8_all name (text enc8 c ++ 0 :: z') (proj1 (proj2 Pn))) as (lp & Ev); [rewrite app_length; cbn [length]; lia|].
      assert (Lb : length (text enc8 c ++ 0 :: z') = (cap - S (length (text enc8 acc)))%nat) by (rewrite app_length; cbn [length]; lia).
      rewrite Lb in Ev.
      match type of E with context [ConvertToUTF8 ?p1 ?p2 ?p3 ?p4] => replace (ConvertToUTF8 p1 p2 p3 p4) with (Ok (Some (P_WinFile.stored (text enc8 c ++ 0 :: z') (text enc8 name)), length (text enc8 name), lp)) in E by (symmetry; exact Ev) end.
      cbn [bind] in E. set (T := P_WinFile.stored (text enc8 c ++ 0 :: z') (text enc8 name)) in E.
      assert (LT : length T = (cap - S (length (text enc8 acc)))%nat) by (unfold T; rewrite stored_blit; [exact Lb|lia]).
      rewrite (blit_part acc c z' T Lb LT) in E. cbn [bind] in E. unfold T, P_WinFile.stored in E. set (zz := skipn (length (text enc8 name)) (text enc8 c ++ 0 :: z')) in *.
      assert (Lzz : (length (text enc8 (acc ++ 92%N :: name)) + length zz = cap)%nat) by (unfold zz; rewrite text8_cons, app_length, skipn_length, Lb; cbn [length]; lia).
      destruct (IH (a ++ 92 :: text enc8 c) R q (acc ++ 92 :: name) zz k F HR (settled_add acc name Sa Pn) Lzz W3 C2) as (z2 & L2 & S2 & E2).
      exists z2. split; [exact L2|]. split; [exact S2|]. econstructor; [exact E|]. rewrite text8_cons, <- !app_assoc in E2. cbn [app] in E2.
      rewrite <- !app_assoc. cbn [app]. replace (length (text enc8 name) + S (length (text enc8 acc)))%nat with (length (text enc8 acc ++ 92 :: text enc8 name)) by (rewrite app_length; cbn [length]; lia). exact E2.
    + assert (Lz2 : (length (text enc8 (acc ++ 92%N :: c)) + length (0%N :: z') = cap)%nat) by (cbn [length]; lia).
      destruct (IH (a ++ 92 :: text enc8 c) R q (acc ++ 92 :: c) (0 :: z') k F HR Sb Lz2 W3 C2) as (z2 & L2 & S2 & E2).
      exists z2. split; [exact L2|]. split; [exact S2|]. econstructor; [exact E|exact E2].
Qed.

Lemma rounds_after k st st' : after cap find gw ga gb g4 sgn vol k st st' -> forall n,
  rounds cap find gw ga gb g4 sgn vol (k + n) st = rounds cap find gw ga gb g4 sgn vol n st'.
Proof. induction 1 as [st|k st st1 st2 E A IH]; intro n; [reflexivity|]. cbn [Nat.add rounds]. rewrite E. cbn [bind]. apply IH. Qed.

(** ** A link to an absolute name that is stored alone *)
Lemma cstr_inv (b t : bytes) : cstr b = Ok t -> exists r, b = t ++ 0 :: r /\ ~ In 0 t.
Proof.
  revert t. induction b as [|c b IH]; intros t E; cbn [cstr] in E; [discriminate|]. destruct (N.eqb_spec c 0) as [->|H].
  - injection E as <-. exists b. split; [reflexivity|intros []].
  - obind E. injection E as <-. destruct (IH _ E0) as (r & -> & N0). exists r. split; [reflexivity|]. intros [X|X]; [exact (H X)|exact (N0 X)].
Qed.

Lemma follow_ok sl T f2a R q f3 links v p : 
  good_text T -> ~ In 0 T -> (2 * length (text enc16 T) <= N.to_nat 8182)%nat -> (length (text enc8 T) + length (text enc16 T) < length g4)%nat ->
  length ga = S LIM -> length gb = S LIM -> last ga 0 <> 92 ->
  accepts sgn (text enc8 T) (v ++ p) -> volume v -> rooted p -> (length v + length p + 3 <= LIM)%nat -> Forall (fun c => c < 256) (text enc8 T) ->
  length f3 = cap -> length (f2a ++ R ++ 0 :: q) = cap -> ~ In 0 (f2a ++ R) -> rooted R ->
  let want := v ++ wrender (resolve [] (wsplit p)) in
  (length want + length R + 1 <= cap - 1)%nat ->
  exists f2' z, length f2' = cap /\ (exists q', f2' = want ++ R ++ 0 :: q') /\ (length v + length z = cap)%nat /\
  follow cap ga gb g4 sgn vol {| is_symlink := sl; words := text enc16 T; name_off := 0; name_len := 2 * length (text enc16 T) |}
    (f2a ++ R ++ 0 :: q) (length (f2a ++ R)) (length f2a) f3 links =
  Ok (Next {| s_f2 := f2'; s_len := length (want ++ R); s_sp := length v; s_f3 := v ++ z; s_x2 := length v; s_links := links |}).
Proof.
  intros G Z L1 L2 La Lb Hl A V Rp Lp Byt L3 L4 Z2 RR want Lw. unfold follow. cbn [is_symlink words name_off name_len].
  set (n := length (text enc16 T)) in *.
  assert (Sl : slice (path_buffer sl (text enc16 T)) 0 (2 * n) = Ok (text enc16 (T ++ repeat 0 n))).
  { assert (C : (N.to_nat 8182 <= N.to_nat (if sl then 8182 else 8184))%nat) by (destruct sl; lia).
    unfold path_buffer. revert C. generalize (N.to_nat (if sl then 8182 else 8184)). intros m C. fold n.
    rewrite firstn_all2 by (rewrite app_length, repeat_length; fold n; lia).
    rewrite slice_in by (rewrite app_length, repeat_length; fold n; lia). cbn [skipn]. f_equal.
    rewrite text_app, zeros16. replace (2 * n)%nat with (length (text enc16 T) + n)%nat by (fold n; lia). rewrite firstn_app_2. f_equal.
    replace (m - n)%nat with (n + (m - n - n))%nat by lia. rewrite repeat_app, firstn_app, repeat_length, Nat.sub_diag. cbn [firstn]. rewrite app_nil_r.
    apply firstn_all2. rewrite repeat_length. lia. }
  rewrite Sl. cbn [bind].
  assert (L8 : length (text enc8 (T ++ repeat 0 n)) = (length (text enc8 T) + n)%nat) by (rewrite text_app, zeros8, app_length, repeat_length; reflexivity).
  destruct (to8_all (T ++ repeat 0 n) g4 (good_zeros _ _ G)) as (lp & Ev); [lia|].
  match goal with |- context [ConvertToUTF8 ?p1 ?p2 ?p3 ?p4] => replace (ConvertToUTF8 p1 p2 p3 p4) with (Ok (Some (P_WinFile.stored g4 (text enc8 (T ++ repeat 0 n))), length (text enc8 (T ++ repeat 0 n)), lp)) by (symmetry; exact Ev) end.
  cbn [bind].
  assert (Ne : T <> []). { intros ->. destruct A as [A _]. apply A. reflexivity. }
  assert (Pn : (0 < n)%nat). { destruct T as [|c T']; [congruence|]. unfold n. change (text enc16 (c :: T')) with (enc16 c ++ text enc16 T'). rewrite app_length. unfold enc16 at 1. destruct (c <? 65536); cbn [length]; lia. }
  assert (C4 : cstr (P_WinFile.stored g4 (text enc8 (T ++ repeat 0 n))) = Ok (text enc8 T)).
  { unfold P_WinFile.stored. rewrite text_app, zeros8. destruct n as [|n']; [lia|]. cbn [repeat]. rewrite <- app_assoc. cbn [app]. apply cstr_at. apply text8_no0. exact Z. }
  rewrite C4. cbn [bind].
  assert (W1 : exists y r', R ++ 0 :: q = y :: r' /\ ((R = [] /\ y = 0 /\ r' = q) \/ (R <> [] /\ y = 92))).
  { destruct R as [|y R]; [exists 0, q; auto|]. exists y, (R ++ 0 :: q). split; [reflexivity|]. right. split; [discriminate|]. destruct RR as [RR|[r RR]]; [discriminate|congruence]. }
  destruct W1 as (y & r' & Ey & Cy). rewrite Ey. rewrite wr_mid. cbn [bind].
  rewrite cstr_at by (intro X; apply Z2; apply in_or_app; left; exact X). cbn [bind].
  destruct (volume_facts v V) as (Sv & Hv & Bv & Pv).
  assert (Wf : wf_utf8 (text enc8 T)) by (exists T; auto).
  assert (By2 : Forall (fun c => 0 < c < 256) (text enc8 T)).
  { apply Forall_forall. intros c Hc. rewrite Forall_forall in Byt. specialize (Byt c Hc). pose proof (text8_no0 T Z) as N8. assert (c <> 0) by (intros ->; exact (N8 Hc)). lia. }
  destruct (C84_absolute sgn vol ga gb None f3 (Some f2a) (text enc8 T) v p false La Lb Hl Wf By2 A V Rp Lp) as (r & Er & Cr & Lr).
  { cbv iota. rewrite app_nil_r. fold want. lia. }
  rewrite app_nil_r in Cr. fold want in Cr.
  match goal with |- context [WGetAbsoluteFilename ?x1 ?x2 ?x3 ?x4 ?x5 ?x6 ?x7 ?x8 ?x9] => replace (WGetAbsoluteFilename x1 x2 x3 x4 x5 x6 x7 x8 x9) with (Ok (r, true)) by (symmetry; exact Er) end. cbn [bind negb].
  replace (length f2a <? length (f2a ++ R))%nat with (negb (match R with [] => true | _ => false end)).
  2:{ rewrite app_length. destruct R; cbn [length negb]; symmetry; [apply Nat.ltb_ge; lia|apply Nat.ltb_lt; lia]. }
  assert (Wr : (if negb (match R with [] => true | _ => false end) then wr (f2a ++ 0 :: r') (length f2a) bsl else Ok (f2a ++ 0 :: r')) = Ok (f2a ++ R ++ 0 :: q)).
  { rewrite Ey. destruct Cy as [(-> & -> & ->)|[NR ->]]; [reflexivity|]. destruct R; [congruence|]. cbn [negb]. rewrite wr_mid. reflexivity. }
  rewrite Wr. cbn [bind]. rewrite Cr. cbn [bind].
  rewrite app_length. destruct (Nat.ltb_spec (cap - 1) (length want + (length f2a + length R) - length f2a + 1)) as [X|_]; [lia|].
  replace (length f2a + length R - length f2a + 1)%nat with (length R + 1)%nat by lia.
  rewrite !app_length in L4. cbn [length] in L4.
  rewrite slice_in by (rewrite !app_length; cbn [length]; lia). cbn [bind]. rewrite skipn_app, skipn_all, Nat.sub_diag. cbn [skipn app].
  replace (firstn (length R + 1) (R ++ 0 :: q)) with (R ++ [0]).
  2:{ rewrite firstn_app_2. reflexivity. }
  destruct (cstr_inv _ _ Cr) as (rr & -> & Zw). rewrite app_length in Lr. cbn [length] in Lr. 
  assert (ZR : ~ In 0 R) by (intro X; apply Z2; apply in_or_app; right; exact X).
  rewrite blit_in by (rewrite !app_length; cbn [length]; lia). cbn [bind].
  replace (firstn (length want) (want ++ 0 :: rr)) with want by (rewrite firstn_app, firstn_all, Nat.sub_diag; cbn [firstn]; rewrite app_nil_r; reflexivity).
  set (tl3 := skipn (length want + length (R ++ [0])) (want ++ 0 :: rr)).
  assert (Ltl : (length want + length R + 1 + length tl3 = cap)%nat) by (unfold tl3; rewrite skipn_length, !app_length; cbn [length]; lia).
  replace (want ++ (R ++ [0]) ++ tl3) with ((want ++ R) ++ 0 :: tl3) by (rewrite <- !app_assoc; reflexivity).
  assert (ZwR : ~ In 0 (want ++ R)) by (intro X; apply in_app_or in X; destruct X; auto).
  rewrite cstr_at by exact ZwR. cbn [bind].
  rewrite blit_in by (rewrite !app_length; cbn [length]; lia). cbn [bind firstn app].
  replace (starts false s_uni (want ++ R)) with true.
  2:{ symmetry. apply starts_cs. destruct Bv as [x Ex]. unfold want. rewrite Ex. eexists. rewrite <- !app_assoc. reflexivity. }
  cbn [negb].
  assert (RP : rooted (wrender (resolve [] (wsplit p)) ++ R)) by (destruct (resolve [] (wsplit p)); [exact RR|right; eexists; reflexivity]).
  destruct (Pv _ RP) as [P1 _].
  assert (Esp : StartPath (WGetPlatformFilenameInfo (want ++ R)) = length v) by (unfold want; rewrite <- app_assoc; exact P1).
  rewrite Esp.
  assert (Ef : firstn (length v) (want ++ R) = v) by (unfold want; rewrite <- app_assoc, firstn_app, firstn_all, Nat.sub_diag; cbn [firstn]; apply app_nil_r).
  rewrite Ef. assert (Lvw : (length v <= length want)%nat) by (unfold want; rewrite app_length; lia).
  rewrite blit_in by (rewrite !app_length; cbn [length]; lia). cbn [bind firstn app].
  eexists _, _. split; [|split; [|split; [|reflexivity]]].
  - rewrite !app_length, skipn_length, !app_length. cbn [length]. lia.
  - eexists. rewrite <- !app_assoc. reflexivity.
  - rewrite skipn_length, !app_length. cbn [length]. lia.
Qed.
(** A link to a relative name that is stored alone. *)
Lemma follow_rel sl T f2a R q f3 links v d ds :
  good_text T -> ~ In 0 T -> (2 * length (text enc16 T) <= N.to_nat 8182)%nat -> (length (text enc8 T) + length (text enc16 T) < length g4)%nat ->
  length ga = S LIM -> length gb = S LIM -> last ga 0 <> 92 ->
  accepts sgn (text enc8 T) (win (text enc8 T)) -> ~ begins_with [92; 92] (win (text enc8 T)) -> proper (hd [] (wsplit (win (text enc8 T)))) ->
  f2a = v ++ d -> wf_utf8 f2a -> accepts sgn f2a (v ++ d) -> volume v -> rooted d -> Forall proper (wsplit d) ->
  (length v + length d + length (text enc8 T) + 3 <= LIM)%nat -> Forall (fun c => c < 256) (text enc8 T) -> Forall (fun c => c < 256) f2a ->
  length f3 = cap -> length (f2a ++ R ++ 0 :: q) = cap -> ~ In 0 (f2a ++ R) -> rooted R ->
  wplace d (win (text enc8 T)) = ds ->
  let want := v ++ wrender ds in
  (length want < cap)%nat ->
  let o := follow cap ga gb g4 sgn vol {| is_symlink := sl; words := text enc16 T; name_off := 0; name_len := 2 * length (text enc16 T) |}
    (f2a ++ R ++ 0 :: q) (length (f2a ++ R)) (length f2a) f3 links in
  o = Ok (Stop None) \/
  exists f2' z, length f2' = cap /\ (exists q', f2' = want ++ R ++ 0 :: q') /\ (length v + length z = cap)%nat /\ ~ In 0 want /\
  o = Ok (Next {| s_f2 := f2'; s_len := length (want ++ R); s_sp := length v; s_f3 := v ++ z; s_x2 := length v; s_links := links |}).
Proof.
  intros G Z L1 L2 La Lb Hl A NB Pr Ef2 Wb Ab V Rp Fp Lp Byt Byf L3 L4 Z2 RR Ep want Lw o. unfold o, follow. clear o. cbn [is_symlink words name_off name_len].
  set (n := length (text enc16 T)) in *.
  assert (Sl : slice (path_buffer sl (text enc16 T)) 0 (2 * n) = Ok (text enc16 (T ++ repeat 0 n))).
  { assert (C : (N.to_nat 8182 <= N.to_nat (if sl then 8182 else 8184))%nat) by (destruct sl; lia).
    unfold path_buffer. revert C. generalize (N.to_nat (if sl then 8182 else 8184)). intros m C. fold n.
    rewrite firstn_all2 by (rewrite app_length, repeat_length; fold n; lia).
    rewrite slice_in by (rewrite app_length, repeat_length; fold n; lia). cbn [skipn]. f_equal.
    rewrite text_app, zeros16. replace (2 * n)%nat with (length (text enc16 T) + n)%nat by (fold n; lia). rewrite firstn_app_2. f_equal.
    replace (m - n)%nat with (n + (m - n - n))%nat by lia. rewrite repeat_app, firstn_app, repeat_length, Nat.sub_diag. cbn [firstn]. rewrite app_nil_r.
    apply firstn_all2. rewrite repeat_length. lia. }
  rewrite Sl. cbn [bind].
  assert (L8 : length (text enc8 (T ++ repeat 0 n)) = (length (text enc8 T) + n)%nat) by (rewrite text_app, zeros8, app_length, repeat_length; reflexivity).
  destruct (to8_all (T ++ repeat 0 n) g4 (good_zeros _ _ G)) as (lp & Ev); [lia|].
  match goal with |- context [ConvertToUTF8 ?p1 ?p2 ?p3 ?p4] => replace (ConvertToUTF8 p1 p2 p3 p4) with (Ok (Some (P_WinFile.stored g4 (text enc8 (T ++ repeat 0 n))), length (text enc8 (T ++ repeat 0 n)), lp)) by (symmetry; exact Ev) end.
  cbn [bind].
  assert (Ne : T <> []). { intros ->. destruct A as [A _]. apply A. reflexivity. }
  assert (Pn : (0 < n)%nat). { destruct T as [|c T']; [congruence|]. unfold n. change (text enc16 (c :: T')) with (enc16 c ++ text enc16 T'). rewrite app_length. unfold enc16 at 1. destruct (c <? 65536); cbn [length]; lia. }
  assert (C4 : cstr (P_WinFile.stored g4 (text enc8 (T ++ repeat 0 n))) = Ok (text enc8 T)).
  { unfold P_WinFile.stored. rewrite text_app, zeros8. destruct n as [|n']; [lia|]. cbn [repeat]. rewrite <- app_assoc. cbn [app]. apply cstr_at. apply text8_no0. exact Z. }
  rewrite C4. cbn [bind].
  assert (W1 : exists y r', R ++ 0 :: q = y :: r' /\ ((R = [] /\ y = 0 /\ r' = q) \/ (R <> [] /\ y = 92))).
  { destruct R as [|y R]; [exists 0, q; auto|]. exists y, (R ++ 0 :: q). split; [reflexivity|]. right. split; [discriminate|]. destruct RR as [RR|[r RR]]; [discriminate|congruence]. }
  destruct W1 as (y & r' & Ey & Cy). rewrite Ey. rewrite wr_mid. cbn [bind].
  rewrite cstr_at by (intro X; apply Z2; apply in_or_app; left; exact X). cbn [bind].
  destruct (volume_facts v V) as (Sv & Hv & Bv & Pv).
  assert (Wf : wf_utf8 (text enc8 T)) by (exists T; auto).
  assert (By2 : Forall (fun c => 0 < c < 256) (text enc8 T)).
  { apply Forall_forall. intros c Hc. rewrite Forall_forall in Byt. specialize (Byt c Hc). pose proof (text8_no0 T Z) as N8. assert (c <> 0) by (intros ->; exact (N8 Hc)). lia. }
  assert (By3 : Forall (fun c => 0 < c < 256) f2a).
  { apply Forall_forall. intros c Hc. rewrite Forall_forall in Byf. specialize (Byf c Hc). assert (c <> 0) by (intros ->; apply Z2; apply in_or_app; left; exact Hc). lia. }
  destruct (C84_relative sgn vol ga gb None f3 f2a (text enc8 T) v d false La Lb Hl Wf By2 A NB Pr Wb By3 Ab V Rp Fp Lp) as (r & Er & Cr & Lr).
  { cbv iota. rewrite app_nil_r, Ep. fold want. lia. }
  rewrite Ep in Cr.
  rewrite app_nil_r in Cr. fold want in Cr.
  match goal with |- context [WGetAbsoluteFilename ?x1 ?x2 ?x3 ?x4 ?x5 ?x6 ?x7 ?x8 ?x9] => replace (WGetAbsoluteFilename x1 x2 x3 x4 x5 x6 x7 x8 x9) with (Ok (r, true)) by (symmetry; exact Er) end. cbn [bind negb].
  replace (length f2a <? length (f2a ++ R))%nat with (negb (match R with [] => true | _ => false end)).
  2:{ rewrite app_length. destruct R; cbn [length negb]; symmetry; [apply Nat.ltb_ge; lia|apply Nat.ltb_lt; lia]. }
  assert (Wr : (if negb (match R with [] => true | _ => false end) then wr (f2a ++ 0 :: r') (length f2a) bsl else Ok (f2a ++ 0 :: r')) = Ok (f2a ++ R ++ 0 :: q)).
  { rewrite Ey. destruct Cy as [(-> & -> & ->)|[NR ->]]; [reflexivity|]. destruct R; [congruence|]. cbn [negb]. rewrite wr_mid. reflexivity. }
  rewrite Wr. cbn [bind]. rewrite Cr. cbn [bind].
  rewrite (app_length f2a R). destruct (Nat.ltb_spec (cap - 1) (length want + (length f2a + length R) - length f2a + 1)) as [X|Lw2]; [left; reflexivity|right].
  replace (length f2a + length R - length f2a + 1)%nat with (length R + 1)%nat by lia.
  rewrite !app_length in L4. cbn [length] in L4.
  rewrite slice_in by (rewrite !app_length; cbn [length]; lia). cbn [bind]. rewrite skipn_app, skipn_all, Nat.sub_diag. cbn [skipn app].
  replace (firstn (length R + 1) (R ++ 0 :: q)) with (R ++ [0]).
  2:{ rewrite firstn_app_2. reflexivity. }
  destruct (cstr_inv _ _ Cr) as (rr & -> & Zw). rewrite app_length in Lr. cbn [length] in Lr. 
  assert (ZR : ~ In 0 R) by (intro X; apply Z2; apply in_or_app; right; exact X).
  rewrite blit_in by (rewrite !app_length; cbn [length]; lia). cbn [bind].
  replace (firstn (length want) (want ++ 0 :: rr)) with want by (rewrite firstn_app, firstn_all, Nat.sub_diag; cbn [firstn]; rewrite app_nil_r; reflexivity).
  set (tl3 := skipn (length want + length (R ++ [0])) (want ++ 0 :: rr)).
  assert (Ltl : (length want + length R + 1 + length tl3 = cap)%nat) by (unfold tl3; rewrite skipn_length, !app_length; cbn [length]; lia).
  replace (want ++ (R ++ [0]) ++ tl3) with ((want ++ R) ++ 0 :: tl3) by (rewrite <- !app_assoc; reflexivity).
  assert (ZwR : ~ In 0 (want ++ R)) by (intro X; apply in_app_or in X; destruct X; auto).
  rewrite cstr_at by exact ZwR. cbn [bind].
  rewrite blit_in by (rewrite !app_length; cbn [length]; lia). cbn [bind firstn app].
  replace (starts false s_uni (want ++ R)) with true.
  2:{ symmetry. apply starts_cs. destruct Bv as [x Ex]. unfold want. rewrite Ex. eexists. rewrite <- !app_assoc. reflexivity. }
  cbn [negb].
  assert (RP : rooted (wrender (ds) ++ R)) by (destruct (ds); [exact RR|right; eexists; reflexivity]).
  destruct (Pv _ RP) as [P1 _].
  assert (Esp : StartPath (WGetPlatformFilenameInfo (want ++ R)) = length v) by (unfold want; rewrite <- app_assoc; exact P1).
  rewrite Esp.
  assert (Ef : firstn (length v) (want ++ R) = v) by (unfold want; rewrite <- app_assoc, firstn_app, firstn_all, Nat.sub_diag; cbn [firstn]; apply app_nil_r).
  rewrite Ef. assert (Lvw : (length v <= length want)%nat) by (unfold want; rewrite app_length; lia).
  rewrite blit_in by (rewrite !app_length; cbn [length]; lia). cbn [bind firstn app].
  eexists _, _. split; [|split; [|split; [|split; [exact Zw|reflexivity]]]].
  - rewrite !app_length, skipn_length, !app_length. cbn [length]. lia.
  - eexists. rewrite <- !app_assoc. reflexivity.
  - rewrite skipn_length, !app_length. cbn [length]. lia.
Qed.
End Step.
