(** Proofs about Windows file names. *)
From Verif Require Import Base S_Utf8 M_Utf8 P_Utf8 S_Path M_Path P_MixedVar P_AppInfo P_Path S_WinPath M_WinPath.
From Verif Require Prop_Utf8.
Open Scope N_scope.

Notation nz := (Forall (fun c : N => c <> 0)).

Lemma low_upper a c : (low a =? low c) = (upper a =? upper c).
Proof.
  unfold low, upper.
  destruct (65 <=? a) eqn:?, (a <=? 90) eqn:?, (97 <=? a) eqn:?, (a <=? 122) eqn:?,
    (65 <=? c) eqn:?, (c <=? 90) eqn:?, (97 <=? c) eqn:?, (c <=? 122) eqn:?; cbn [andb]; lia.
Qed.

Lemma same_zero ci c : c <> 0 -> same ci 0 c = false.
Proof.
  intro H. destruct ci; unfold same.
  - rewrite low_upper. change (upper 0) with 0. unfold upper. destruct (N.leb_spec 97 c), (N.leb_spec c 122); cbn [andb]; lia.
  - lia.
Qed.

Lemma rd_text (t q : bytes) x : (x <= length t)%nat -> rd (t ++ 0 :: q) x = Ok (nth x t 0).
Proof.
  intro H. rewrite (rd_in _ _ 0) by (rewrite app_length; cbn; lia).
  destruct (Nat.lt_ge_cases x (length t)) as [L|L].
  - rewrite app_nth1 by exact L. reflexivity.
  - replace x with (length t) by lia. rewrite app_nth2, Nat.sub_diag by lia. cbn [nth]. rewrite nth_overflow by lia. reflexivity.
Qed.

Lemma skipn_nth_cons (t : bytes) x : (x < length t)%nat -> skipn x t = nth x t 0 :: skipn (S x) t.
Proof. revert x. induction t as [|c t IH]; intros [|x] H; cbn in *; try lia; [reflexivity|]. apply IH. lia. Qed.

Lemma pre_text ci q p : nz p -> forall t x, (x <= length t)%nat -> pre ci (t ++ 0 :: q) x p = Ok (starts ci p (skipn x t)).
Proof.
  induction p as [|c p IH]; intros Hp t x Hx; [reflexivity|]. cbn [pre]. rewrite rd_text by exact Hx. cbn [bind].
  destruct (Nat.lt_ge_cases x (length t)) as [L|L].
  - rewrite (skipn_nth_cons t x L). cbn [starts]. destruct (same ci (nth x t 0) c); [|reflexivity].
    cbn [andb]. apply IH; [exact (Forall_inv_tail Hp)|lia].
  - rewrite nth_overflow, skipn_all2 by lia. rewrite same_zero by exact (Forall_inv Hp). reflexivity.
Qed.

Lemma starts_ci p : forall t, starts true p t = true <-> begins p t.
Proof.
  induction p as [|c p IH]; intro t.
  - split; [|reflexivity]. intros _. exists [], t. split; reflexivity.
  - destruct t as [|a t]; cbn [starts].
    + split; [discriminate|]. intros (u & r & E & M). destruct u; [discriminate|discriminate].
    + unfold same. rewrite low_upper, andb_true_iff, IH, N.eqb_eq. split.
      * intros (E & u & r & -> & M). exists (a :: u), r. split; [reflexivity|]. cbn. congruence.
      * intros (u & r & E & M). destruct u as [|a' u]; [discriminate|]. cbn in E, M. injection E as -> ->. injection M as M1 M2.
        split; [exact M1|]. exists u, r. split; [reflexivity|exact M2].
Qed.

Lemma starts_cs p : forall t, starts false p t = true <-> begins_with p t.
Proof.
  induction p as [|c p IH]; intro t.
  - split; [|reflexivity]. intros _. exists t. reflexivity.
  - destruct t as [|a t]; cbn [starts].
    + split; [discriminate|]. intros (r & E). discriminate.
    + unfold same. rewrite andb_true_iff, IH, N.eqb_eq. split.
      * intros (-> & r & ->). exists r. reflexivity.
      * intros (r & E). injection E as -> ->. split; [reflexivity|]. exists r. reflexivity.
Qed.

Lemma slashes_ok t : forall p q, slashes_to_bs (length t) (p ++ t ++ q) (length p) = Ok (p ++ win t ++ q).
Proof.
  induction t as [|c t IH]; intros p q; [reflexivity|]. cbn [length slashes_to_bs app].
  rewrite (rd_in _ _ 0) by (rewrite app_length; cbn; lia). rewrite app_nth2, Nat.sub_diag by lia. cbn [nth bind].
  unfold win. cbn [map]. fold (win t). destruct (c =? 47).
  - rewrite wr_mid. cbn [bind]. specialize (IH (p ++ [bsl]) q). rewrite app_length in IH. cbn [length] in IH.
    rewrite Nat.add_1_r, <- !app_assoc in IH. cbn [app] in IH. exact IH.
  - cbn [bind]. specialize (IH (p ++ [c]) q). rewrite app_length in IH. cbn [length] in IH.
    rewrite Nat.add_1_r, <- !app_assoc in IH. cbn [app] in IH. exact IH.
Qed.

(** ** Reserved names *)
Definition beq (a b : bytes) : bool := if list_eq_dec N.eq_dec a b then true else false.
Definition devb (w : bytes) : bool :=
  existsb (beq (map upper w)) [s_NUL; s_CON; s_AUX; s_PRN; s_CLOCK] ||
  match map upper w with
  | [a; b; c; d] => (beq [a; b; c] s_LPT || beq [a; b; c] s_COM) && (48 <=? d) && (d <=? 57)
  | _ => false
  end.

Lemma beq_true a b : beq a b = true <-> a = b.
Proof. unfold beq. destruct (list_eq_dec N.eq_dec a b); split; congruence. Qed.

Lemma upper_upper c : upper (upper c) = upper c.
Proof.
  unfold upper at 2 3. destruct (N.leb_spec 97 c), (N.leb_spec c 122); cbn [andb]; unfold upper;
    [destruct (N.leb_spec 97 (c - 32)), (N.leb_spec (c - 32) 122)|destruct (N.leb_spec 97 c), (N.leb_spec c 122)..]; cbn [andb]; lia.
Qed.

Lemma devb_spec w : devb w = true <-> reserved w.
Proof.
  unfold devb, reserved. rewrite orb_true_iff.
  split; intros [H|H].
  - left. apply existsb_exists in H. destruct H as (p & Hin & E). apply beq_true in E. rewrite E. exact Hin.
  - right. destruct (map upper w) as [|a [|b [|c [|d [|]]]]]; try discriminate H.
    apply andb_true_iff in H. destruct H as [H D2]. apply andb_true_iff in H. destruct H as [H D1].
    exists d. split; [lia|]. apply orb_true_iff in H. destruct H as [H|H]; apply beq_true in H; injection H as -> -> ->; auto.
  - left. apply existsb_exists. exists (map upper w). split; [exact H|]. apply beq_true. reflexivity.
  - right. destruct H as (d & D & [E|E]); rewrite E; cbn [beq]; unfold s_LPT, s_COM;
      destruct (N.leb_spec 48 d), (N.leb_spec d 57); try lia; reflexivity.
Qed.

Lemma starts_len p w : length p = length w -> starts true p w = beq (map upper w) (map upper p).
Proof.
  intro L. destruct (beq (map upper w) (map upper p)) eqn:E.
  - apply beq_true in E. apply starts_ci. exists w, []. rewrite app_nil_r. split; [reflexivity|exact E].
  - destruct (starts true p w) eqn:E2; [|reflexivity]. apply starts_ci in E2. destruct E2 as (u & r & -> & M).
    assert (r = []). { apply (f_equal (@length N)) in M. rewrite !map_length in M. rewrite app_length in L. destruct r; [reflexivity|cbn in L; lia]. }
    subst r. rewrite app_nil_r, M in E. unfold beq in E. destruct (list_eq_dec _ _ _); congruence.
Qed.

Lemma starts_app p : forall w r, (length p <= length w)%nat -> starts true p (w ++ r) = starts true p w.
Proof.
  induction p as [|c p IH]; intros w r L; [reflexivity|]. destruct w as [|a w]; [cbn in L; lia|]. cbn [app starts]. rewrite IH by (cbn in L; lia). reflexivity.
Qed.

Lemma skipn_mid (a b : bytes) : skipn (length a) (a ++ b) = b.
Proof. rewrite skipn_app, skipn_all, Nat.sub_diag. reflexivity. Qed.

Lemma device_text p w r q : device ((p ++ w ++ r) ++ 0 :: q) (length p) (length p + length w) = Ok (devb w).
Proof.
  assert (Pr : forall s, nz s -> (length s <= length w)%nat -> pre true ((p ++ w ++ r) ++ 0 :: q) (length p) s = Ok (starts true s w)).
  { intros s Hs L. rewrite pre_text by (assumption || (rewrite !app_length; lia)).
    rewrite skipn_mid, starts_app by exact L. reflexivity. }
  assert (Hn : nz s_NUL /\ nz s_CON /\ nz s_AUX /\ nz s_PRN /\ nz s_CLOCK /\ nz s_LPT /\ nz s_COM) by (repeat split; repeat constructor; discriminate).
  destruct Hn as (N1 & N2 & N3 & N4 & N5 & N6 & N7).
  unfold device. replace (length p + length w - length p)%nat with (length w) by lia.
  destruct (Nat.eqb_spec (length w) 3) as [L|L3].
  { cbn [any_pre]. rewrite !Pr by (assumption || (cbn; lia)). rewrite !starts_len by (cbn; lia). unfold devb.
    destruct w as [|a [|b [|c [|]]]]; try discriminate L. cbn [map existsb orb].
    change (map upper s_NUL) with s_NUL. change (map upper s_CON) with s_CON. change (map upper s_AUX) with s_AUX. change (map upper s_PRN) with s_PRN.
    replace (beq [upper a; upper b; upper c] s_CLOCK) with false by (symmetry; unfold beq; destruct (list_eq_dec _ _ _); [discriminate|reflexivity]).
    destruct (beq _ s_NUL); [reflexivity|]. destruct (beq _ s_CON); [reflexivity|]. destruct (beq _ s_AUX); [reflexivity|].
    destruct (beq _ s_PRN); reflexivity. }
  assert (X : forall s, length s = 3%nat -> beq (map upper w) s = false).
  { intros s Ls. unfold beq. destruct (list_eq_dec _ _ _) as [E|]; [|reflexivity]. apply (f_equal (@length N)) in E. rewrite map_length in E. lia. }
  unfold devb. cbn [existsb]. rewrite !X by reflexivity. cbn [orb].
  destruct (Nat.eqb_spec (length w) 6) as [L|L6].
  { rewrite Pr by (assumption || (cbn; lia)). rewrite starts_len by (cbn; lia). change (map upper s_CLOCK) with s_CLOCK.
    destruct w as [|? [|? [|? [|? [|? [|? [|]]]]]]]; try discriminate L. cbn [map]. rewrite !orb_false_r. reflexivity. }
  replace (beq (map upper w) s_CLOCK) with false.
  2:{ symmetry. unfold beq. destruct (list_eq_dec _ _ _) as [E|]; [|reflexivity]. apply (f_equal (@length N)) in E. rewrite map_length in E. cbn in E. lia. }
  cbn [orb].
  destruct (Nat.eqb_spec (length w) 4) as [L|L4].
  - cbn [any_pre]. rewrite !Pr by (assumption || (cbn; lia)).
    destruct w as [|a [|b [|c [|d [|]]]]]; try discriminate L. cbn [map].
    change [a; b; c; d] with ([a; b; c] ++ [d]). rewrite !starts_app by (cbn; lia). rewrite !starts_len by reflexivity.
    change (map upper s_LPT) with s_LPT. change (map upper s_COM) with s_COM. cbn [map bind].
    assert (R : rd ((p ++ ([a; b; c] ++ [d]) ++ r) ++ 0 :: q) (length p + length [a; b; c; d] - 1) = Ok d).
    { rewrite rd_text by (rewrite !app_length; cbn; lia). rewrite app_nth2 by (cbn; lia). replace (length p + length [a; b; c; d] - 1 - length p)%nat with 3%nat by (cbn; lia). reflexivity. }
    assert (U : (48 <=? upper d) && (upper d <=? 57) = (48 <=? d) && (d <=? 57)).
    { unfold upper. destruct (97 <=? d) eqn:?, (d <=? 122) eqn:?; cbn [andb]; lia. }
    destruct (beq _ s_LPT); cbn [bind orb andb].
    + change [a; b; c; d] with ([a; b; c] ++ [d]) in R. rewrite R. cbn [bind]. rewrite U. reflexivity.
    + destruct (beq _ s_COM); cbn [bind andb]; [|reflexivity].
      change [a; b; c; d] with ([a; b; c] ++ [d]) in R. rewrite R. cbn [bind]. rewrite U. reflexivity.
  - destruct w as [|? [|? [|? [|? [|]]]]]; try reflexivity. cbn in L4. congruence.
Qed.

(** ** The scan *)
Fixpoint scant (sgn : bool) (r w : bytes) : option bytes :=
  match r with
  | [] => Some w
  | c :: r1 =>
      if wbad sgn c then None
      else if (c =? 46) || (c =? 92) then
        (if devb w then None else scant sgn r1 (if c =? 92 then [] else w ++ [c]))
      else scant sgn r1 (w ++ [c])
  end.

Lemma scan_text sgn q : forall r p w,
  match scant sgn r w with
  | None => scan sgn (length r) ((p ++ w ++ r) ++ 0 :: q) (length p + length w) (length p) = Ok None
  | Some w' => exists p', p ++ w ++ r = p' ++ w' /\ scan sgn (length r) ((p ++ w ++ r) ++ 0 :: q) (length p + length w) (length p) = Ok (Some (length p'))
  end.
Proof.
  induction r as [|c r IH]; intros p w; cbn [scant length scan].
  - exists p. rewrite app_nil_r. split; reflexivity.
  - rewrite rd_text by (rewrite !app_length; cbn; lia).
    rewrite app_assoc, app_nth2 by (rewrite app_length; lia). rewrite app_length, Nat.sub_diag. cbn [nth bind].
    destruct (wbad sgn c); [reflexivity|]. rewrite <- app_assoc.
    specialize (IH p (w ++ [c])) as IH1. specialize (IH (p ++ w ++ [c]) []).
    rewrite !app_length in IH1. rewrite <- app_assoc in IH1. cbn [app length] in IH1. rewrite Nat.add_assoc, Nat.add_1_r in IH1.
    replace ((p ++ w ++ [c]) ++ [] ++ r) with (p ++ w ++ c :: r) in IH by (rewrite <- !app_assoc; reflexivity).
    rewrite !app_length in IH. cbn [length] in IH. rewrite Nat.add_0_r, Nat.add_assoc, Nat.add_1_r in IH.
    destruct ((c =? 46) || (c =? 92)) eqn:E.
    + change (c =? bsl) with (c =? 92). rewrite E. rewrite device_text. cbn [bind]. destruct (devb w); [reflexivity|].
      destruct (c =? 92); [exact IH|exact IH1].
    + change (c =? bsl) with (c =? 92). rewrite E. exact IH1.
Qed.

(** ** What the scan accepts *)
Lemma devb_sign c w : In c w -> (c = 46 \/ c = 58 \/ c = 92) -> devb w = false.
Proof.
  intros Hi Hc. destruct (devb w) eqn:E; [|reflexivity]. exfalso. apply devb_spec in E.
  assert (Hu : In c (map upper w)). { apply in_map_iff. exists c. split; [|exact Hi]. destruct Hc as [-> |[-> | ->]]; reflexivity. }
  clear Hi. destruct E as [E|(d & D & [E|E])].
  - cbn [In] in E. repeat (destruct E as [E|E]; [rewrite <- E in Hu; cbn [In] in Hu; lia|]). exact E.
  - rewrite E in Hu. cbn [In] in Hu. lia.
  - rewrite E in Hu. cbn [In] in Hu. lia.
Qed.

Lemma stem_id w : ~ In 46 w -> stem w = w.
Proof. induction w as [|c w IH]; intro H; [reflexivity|]. cbn [stem]. destruct (N.eqb_spec c 46) as [->|_]; [exfalso; apply H; left; reflexivity|]. f_equal. apply IH. intro X. apply H. right. exact X. Qed.

Lemma stem_dot w r : ~ In 46 w -> stem (w ++ 46 :: r) = w.
Proof. induction w as [|c w IH]; intro H; [reflexivity|]. cbn [stem app]. destruct (N.eqb_spec c 46) as [->|_]; [exfalso; apply H; left; reflexivity|]. f_equal. apply IH. intro X. apply H. right. exact X. Qed.

Lemma stem_keep w r : In 46 w -> stem (w ++ r) = stem w.
Proof. induction w as [|c w IH]; intro H; [destruct H|]. cbn [stem app]. destruct (N.eqb_spec c 46) as [->|X]; [reflexivity|]. f_equal. apply IH. destruct H; [congruence|assumption]. Qed.

Lemma wsplit_ne s : wsplit s <> [].
Proof. destruct s as [|c s]; [discriminate|]. cbn. destruct (c =? 92); [discriminate|]. destruct (wsplit s); discriminate. Qed.

Lemma wsplit_one w : ~ In 92 w -> wsplit w = [w].
Proof. induction w as [|c w IH]; intro H; [reflexivity|]. cbn. destruct (N.eqb_spec c 92) as [->|_]; [exfalso; apply H; left; reflexivity|]. rewrite IH by (intro X; apply H; right; exact X). reflexivity. Qed.

Lemma wsplit_word w r : ~ In 92 w -> wsplit (w ++ 92 :: r) = w :: wsplit r.
Proof. induction w as [|c w IH]; intro H; [reflexivity|]. cbn. destruct (N.eqb_spec c 92) as [->|_]; [exfalso; apply H; left; reflexivity|]. rewrite IH by (intro X; apply H; right; exact X). reflexivity. Qed.

Lemma wsplit_pre w r : ~ In 92 w -> exists h t, wsplit r = h :: t /\ wsplit (w ++ r) = (w ++ h) :: t.
Proof.
  intro H. pose proof (wsplit_ne r). destruct (wsplit r) as [|h t] eqn:E; [congruence|]. exists h, t. split; [reflexivity|]. clear H0.
  induction w as [|c w IH]; [exact E|]. cbn. destruct (N.eqb_spec c 92) as [->|_]; [exfalso; apply H; left; reflexivity|].
  rewrite IH by (intro X; apply H; right; exact X). reflexivity.
Qed.

Definition okc (sgn : bool) (c : N) : Prop := wbad sgn c = false.
Definition free (w : bytes) : Prop := devb (stem w) = false.
Definition passes (sgn : bool) (r w : bytes) : Prop := exists w', scant sgn r w = Some w' /\ devb w' = false.

Lemma passes_word sgn : forall r w, ~ In 92 w -> (In 46 w -> free w) ->
  passes sgn r w <-> Forall (okc sgn) r /\ Forall free (wsplit (w ++ r)).
Proof.
  unfold passes, free. induction r as [|c r IH]; intros w Hw Hd.
  - rewrite app_nil_r, wsplit_one by exact Hw. cbn [scant]. split.
    + intros (w' & E & D). injection E as <-. split; [constructor|]. constructor; [|constructor].
      destruct (in_dec N.eq_dec 46 w) as [i|i]; [exact (Hd i)|]. rewrite stem_id by exact i. exact D.
    + intros (_ & F). exists w. split; [reflexivity|]. destruct (in_dec N.eq_dec 46 w) as [i|i].
      * apply (devb_sign 46); auto.
      * rewrite <- (stem_id w i). exact (Forall_inv F).
  - cbn [scant]. destruct (wbad sgn c) eqn:B.
    { split; [intros (w' & E & _); discriminate|]. intros (F & _). pose proof (Forall_inv F) as X. unfold okc in X. congruence. }
    assert (Fc : forall P, Forall (okc sgn) r /\ P <-> Forall (okc sgn) (c :: r) /\ P).
    { intro P. split; intros [A Q]; (split; [|exact Q]); [constructor; [exact B|exact A]|exact (Forall_inv_tail A)]. }
    rewrite <- Fc. clear Fc.
    destruct (N.eqb_spec c 92) as [->|N92].
    + rewrite orb_true_r, wsplit_word by exact Hw.
      assert (Dw : devb w = devb (stem w)).
      { destruct (in_dec N.eq_dec 46 w) as [i|i]; [|rewrite stem_id by exact i; reflexivity].
        rewrite (Hd i). apply (devb_sign 46); auto. }
      destruct (devb w) eqn:D.
      * split; [intros (w' & E & _); discriminate|]. intros (_ & F). pose proof (Forall_inv F) as X. cbv beta in X. congruence.
      * rewrite (IH []) by (intros []). cbn [app]. split; intros [A F]; (split; [exact A|]).
        -- constructor; [congruence|exact F].
        -- exact (Forall_inv_tail F).
    + rewrite orb_false_r. destruct (N.eqb_spec c 46) as [->|N46].
      * destruct (devb w) eqn:D.
        -- split; [intros (w' & E & _); discriminate|]. intros (_ & F). exfalso.
           assert (i : ~ In 46 w) by (intro i; rewrite (devb_sign 46 w i) in D; [discriminate|auto]).
           destruct (wsplit_pre w (46 :: r) Hw) as (h & t & E1 & E2). rewrite E2 in F. pose proof (Forall_inv F) as X. cbv beta in X.
           cbn in E1. destruct (wsplit r); injection E1 as <- <-; rewrite stem_dot in X by exact i; congruence.
        -- rewrite (IH (w ++ [46])).
           ++ rewrite <- app_assoc. reflexivity.
           ++ intro X. apply in_app_or in X. destruct X as [X|[X|[]]]; [exact (Hw X)|discriminate].
           ++ intros _. destruct (in_dec N.eq_dec 46 w) as [i|i]; [rewrite stem_keep by exact i; exact (Hd i)|].
              rewrite stem_dot by exact i. exact D.
      * rewrite (IH (w ++ [c])).
        -- rewrite <- app_assoc. reflexivity.
        -- intro X. apply in_app_or in X. destruct X as [X|[X|[]]]; [exact (Hw X)|congruence].
        -- intro i. apply in_app_or in i. destruct i as [i|[i|[]]]; [rewrite stem_keep by exact i; exact (Hd i)|congruence].
Qed.

Lemma passes_prefix sgn : forall r w c0, In c0 w -> c0 = 58 \/ c0 = 92 ->
  passes sgn r w <-> Forall (okc sgn) r /\ Forall free (tl (wsplit r)).
Proof.
  unfold passes. induction r as [|c r IH]; intros w c0 Hi Hc; assert (Dw : devb w = false) by (apply (devb_sign c0); tauto).
  - cbn. split; [intros _; split; constructor|]. intros _. exists w. split; [reflexivity|exact Dw].
  - cbn [scant]. destruct (wbad sgn c) eqn:B.
    { split; [intros (w' & E & _); discriminate|]. intros (F & _). pose proof (Forall_inv F) as X. unfold okc in X. congruence. }
    assert (Fc : forall P, Forall (okc sgn) r /\ P <-> Forall (okc sgn) (c :: r) /\ P).
    { intro P. split; intros [A Q]; (split; [|exact Q]); [constructor; [exact B|exact A]|exact (Forall_inv_tail A)]. }
    rewrite <- Fc. clear Fc. rewrite Dw. cbn [wsplit].
    destruct (N.eqb_spec c 92) as [->|N92].
    + rewrite orb_true_r. cbn [tl]. apply (passes_word sgn r []); intros [].
    + rewrite orb_false_r. replace (if c =? 46 then scant sgn r (w ++ [c]) else scant sgn r (w ++ [c])) with (scant sgn r (w ++ [c])) by (destruct (c =? 46); reflexivity).
      rewrite (IH (w ++ [c]) c0) by (exact Hc || (apply in_or_app; left; exact Hi)).
      pose proof (wsplit_ne r). destruct (wsplit r) as [|h t]; [congruence|]. reflexivity.
Qed.

(** The scan and the check of the last component. *)
Definition checked (sgn : bool) (b : bytes) (y x : nat) (k : res (bytes * bool)) : res (bytes * bool) :=
  let* l := scan sgn (y - x) b x 0 in
  match l with
  | None => Ok (b, false)
  | Some last => let* dv := device b last y in if dv then Ok (b, false) else k
  end.

Lemma checked_text sgn w r q k :
  (passes sgn r w -> checked sgn ((w ++ r) ++ 0 :: q) (length (w ++ r)) (length w) k = k) /\
  (~ passes sgn r w -> checked sgn ((w ++ r) ++ 0 :: q) (length (w ++ r)) (length w) k = Ok ((w ++ r) ++ 0 :: q, false)).
Proof.
  unfold checked, passes. replace (length (w ++ r) - length w)%nat with (length r) by (rewrite app_length; lia).
  pose proof (scan_text sgn q r [] w) as S. cbn [app length Nat.add] in S.
  destruct (scant sgn r w) as [w'|]; [|rewrite S; split; [intros (w' & E & _); discriminate|intros _; reflexivity]].
  destruct S as (p' & E & ->). cbn [bind].
  assert (D : device ((w ++ r) ++ 0 :: q) (length p') (length (w ++ r)) = Ok (devb w')).
  { rewrite E. rewrite app_length. pose proof (device_text p' w' [] q) as D. rewrite app_nil_r in D. exact D. }
  rewrite D. cbn [bind]. destruct (devb w') eqn:X; split.
  - intros (w2 & E2 & D2). injection E2 as <-. congruence.
  - reflexivity.
  - reflexivity.
  - intro Hn. exfalso. apply Hn. exists w'. split; [reflexivity|exact X].
Qed.

Lemma gpf_rest_eq sgn vol unsafe b y : gpf_rest sgn vol unsafe b y =
  (let* nt := pre false b 0 s_nt in
  let* b1 := (if nt then wr b 1 bsl else Ok b) in
  let* d1 := pre true b1 0 s_dev in
  let* d2 := (if d1 then Ok true else pre false b1 0 s_dot) in
  if d2 then Ok (b1, unsafe)
  else
    let* unc := pre true b1 0 s_unc in
    let* uni := (if unc then Ok true else pre false b1 0 s_uni) in
    let* (b2, x2, drv) := drive b1 (if unc then 8%nat else if uni then 4%nat else 0%nat) in
    checked sgn b2 y x2 (normalise vol b2 y uni unc drv)).
Proof. reflexivity. Qed.

(** ** Normalisation *)
Lemma memmove_in (b : bytes) dst src n : (src + n <= length b)%nat -> (dst + n <= length b)%nat ->
  memmove b dst src n = Ok (firstn dst b ++ firstn n (skipn src b) ++ skipn (dst + n) b).
Proof.
  intros H1 H2. unfold memmove, slice. destruct (Nat.leb_spec (src + n) (length b)); [|lia]. cbn [bind]. unfold blit.
  rewrite firstn_length, skipn_length. replace (Nat.min n (length b - src)) with n by lia.
  destruct (Nat.leb_spec (dst + n) (length b)); [reflexivity|lia].
Qed.

Lemma memmove_out (b : bytes) dst src n : (src + n <= length b)%nat -> (length b < dst + n)%nat -> memmove b dst src n = UB.
Proof.
  intros H1 H2. unfold memmove, slice. destruct (Nat.leb_spec (src + n) (length b)); [|lia]. cbn [bind]. unfold blit.
  rewrite firstn_length, skipn_length. replace (Nat.min n (length b - src)) with n by lia.
  destruct (Nat.leb_spec (dst + n) (length b)); [lia|reflexivity].
Qed.

Lemma blit_over (a m z s : bytes) : length m = length s -> blit (a ++ m ++ z) (length a) s = Ok (a ++ s ++ z).
Proof.
  intro L. unfold blit. rewrite !app_length. destruct (Nat.leb_spec (length a + length s) (length a + (length m + length z))); [|lia].
  f_equal. rewrite firstn_app, firstn_all, Nat.sub_diag. cbn [firstn]. rewrite app_nil_r. f_equal. f_equal.
  rewrite skipn_app, (skipn_all2 a) by lia. cbn [app]. replace (length a + length s - length a)%nat with (length m) by lia. apply skipn_mid.
Qed.

Lemma firstn_mid (a b : bytes) : firstn (length a) (a ++ b) = a.
Proof. rewrite firstn_app, firstn_all, Nat.sub_diag. cbn [firstn]. apply app_nil_r. Qed.

(** Moving the tail [s] (with its terminator) up by [length i] and storing [i] before it. *)
Lemma insert_ok p s q (i : bytes) : (length i <= length q)%nat ->
  (let* b1 := memmove ((p ++ s) ++ 0 :: q) (length p + length i) (length p) (length s + 1) in
   blit b1 (length p) i) = Ok ((p ++ i ++ s) ++ 0 :: skipn (length i) q).
Proof.
  intro L. rewrite memmove_in by (rewrite !app_length; cbn [length]; lia). cbn [bind].
  replace ((p ++ s) ++ 0 :: q) with (p ++ (s ++ [0]) ++ q) by (rewrite <- !app_assoc; reflexivity).
  rewrite skipn_mid. replace (length s + 1)%nat with (length (s ++ [0])) by (rewrite app_length; reflexivity). rewrite firstn_mid.
  rewrite firstn_app, (firstn_all2 p) by lia. replace (length p + length i - length p)%nat with (length i) by lia.
  rewrite <- app_assoc. rewrite blit_over.
  - f_equal. rewrite <- !app_assoc. cbn [app]. do 3 f_equal. f_equal.
    replace (p ++ s ++ 0 :: q) with ((p ++ s ++ [0]) ++ q) by (rewrite <- !app_assoc; reflexivity).
    rewrite skipn_app, skipn_all2 by (rewrite !app_length; cbn; lia). cbn [app]. f_equal. rewrite !app_length. cbn. lia.
  - rewrite firstn_length, !app_length. cbn [length]. lia.
Qed.

Lemma insert_ub p s q (i : bytes) (k : bytes -> res (bytes * bool)) : (length q < length i)%nat ->
  (let* b1 := memmove ((p ++ s) ++ 0 :: q) (length p + length i) (length p) (length s + 1) in k b1) = UB.
Proof.
  intro L. rewrite memmove_out; [reflexivity|rewrite !app_length; cbn [length]; lia|rewrite !app_length; cbn [length]; lia].
Qed.

Lemma find_bs_ok t q : forall n x, (x <= length t)%nat -> (length t < n + x)%nat -> exists r, find_bs n (t ++ 0 :: q) x = Ok r.
Proof.
  induction n as [|n IH]; intros x Hx Hn; [lia|]. cbn [find_bs]. rewrite rd_text by exact Hx. cbn [bind].
  destruct (nth x t 0 =? bsl); [eexists; reflexivity|]. destruct (N.eqb_spec (nth x t 0) 0) as [E|E]; [eexists; reflexivity|].
  apply IH; [|lia]. destruct (Nat.eq_dec x (length t)) as [->|]; [rewrite nth_overflow in E by lia; congruence|lia].
Qed.

Lemma resolve_volume_none vol t q y : nz t -> (4 <= length t)%nat ->
  starts false (s_uni ++ s_vol) t = false \/ (forall x, vol x = None) ->
  resolve_volume vol (t ++ 0 :: q) y = Ok (t ++ 0 :: q).
Proof.
  intros Z L H. unfold resolve_volume.
  destruct (find_bs_ok t q (S (length (t ++ 0 :: q))) 4 L) as [r3 E3]; [rewrite app_length; cbn; lia|]. rewrite E3. cbn [bind].
  rewrite pre_text by (try lia; repeat constructor; discriminate). cbn [skipn bind].
  destruct H as [->|H]; [reflexivity|]. destruct (starts false (s_uni ++ s_vol) t) eqn:S; [|reflexivity]. destruct r3 as [k|]; [|reflexivity].
  apply starts_cs in S. destruct S as [r ->]. cbn [app s_uni s_vol].
  rewrite wr_split by (cbn; lia). cbn [firstn skipn app]. cbn [bind].
  match goal with |- context [cstr ?b] => assert (E : exists s, cstr b = Ok s) end.
  { eexists. match goal with |- cstr (?a :: ?b :: ?l) = _ => change (a :: b :: l) with ((92 :: 63 :: 63 :: 92 :: s_vol ++ r) ++ 0 :: q) end.
    apply cstr_app. apply Forall_app in Z. destruct Z as [_ Z]. repeat (constructor; [discriminate|]). exact Z. }
  destruct E as [s ->]. cbn [bind]. rewrite H. cbn [bind]. rewrite wr_split by (cbn; lia). reflexivity.
Qed.

(** ** The forms of a name *)
Lemma canon_cases t : (exists r, t = s_nt ++ r /\ canon t = p_uni ++ r) \/ (starts false s_nt t = false /\ canon t = t).
Proof.
  unfold canon. destruct (list_eq_dec N.eq_dec (firstn 4 t) [92; 63; 63; 92]) as [E|E].
  - left. exists (skipn 4 t). split; [|reflexivity]. rewrite <- (firstn_skipn 4 t) at 1. rewrite E. reflexivity.
  - right. split; [|reflexivity]. destruct (starts false s_nt t) eqn:S; [|reflexivity]. apply starts_cs in S. destruct S as [r ->].
    exfalso. apply E. reflexivity.
Qed.

Lemma canon_length t : length (canon t) = length t.
Proof. destruct (canon_cases t) as [(r & -> & E)|(_ & E)]; rewrite E; reflexivity. Qed.

Lemma canon_nz t : nz t -> nz (canon t).
Proof.
  intro Z. destruct (canon_cases t) as [(r & -> & ->)|(_ & ->)]; [|exact Z].
  apply Forall_app in Z. destruct Z as [_ Z]. apply Forall_app. split; [repeat constructor; discriminate|exact Z].
Qed.

Lemma nt_step t q (k : bytes -> res (bytes * bool)) :
  (let* nt := pre false (t ++ 0 :: q) 0 s_nt in let* b1 := (if nt then wr (t ++ 0 :: q) 1 bsl else Ok (t ++ 0 :: q)) in k b1) = k (canon t ++ 0 :: q).
Proof.
  rewrite pre_text by (try lia; repeat constructor; discriminate). cbn [skipn bind].
  destruct (canon_cases t) as [(r & -> & ->)|(-> & ->)]; [|reflexivity].
  replace (starts false s_nt (s_nt ++ r)) with true by (symmetry; apply starts_cs; exists r; reflexivity).
  rewrite wr_split by (cbn; lia). reflexivity.
Qed.

Lemma letter_upper c : letter c -> 65 <= upper c <= 90.
Proof. unfold letter, upper. destruct (N.leb_spec 97 c), (N.leb_spec c 122); cbn [andb]; lia. Qed.

(** The drive letter at [x]. *)
Lemma drive_letter p c r q : letter c ->
  drive ((p ++ c :: 58 :: r) ++ 0 :: q) (length p) = Ok ((p ++ upper c :: 58 :: r) ++ 0 :: q, (length p + 2)%nat, true).
Proof.
  intro Hc. unfold drive.
  assert (R : forall d, rd ((p ++ d :: 58 :: r) ++ 0 :: q) (length p) = Ok d /\ rd ((p ++ d :: 58 :: r) ++ 0 :: q) (S (length p)) = Ok 58).
  { intro d. split.
    - rewrite rd_text, app_nth2, Nat.sub_diag by (rewrite ?app_length; cbn; lia). reflexivity.
    - rewrite rd_text, app_nth2 by (rewrite ?app_length; cbn; lia). replace (S (length p) - length p)%nat with 1%nat by lia. reflexivity. }
  rewrite (proj1 (R c)). cbn [bind]. pose proof (letter_upper c Hc) as U.
  assert (E : (if (97 <=? c) && (c <=? 122) then let* d := rd ((p ++ c :: 58 :: r) ++ 0 :: q) (S (length p)) in
              if d =? 58 then wr ((p ++ c :: 58 :: r) ++ 0 :: q) (length p) (c - 97 + 65) else Ok ((p ++ c :: 58 :: r) ++ 0 :: q)
              else Ok ((p ++ c :: 58 :: r) ++ 0 :: q)) = Ok ((p ++ upper c :: 58 :: r) ++ 0 :: q)).
  { unfold upper. destruct ((97 <=? c) && (c <=? 122)) eqn:L; [|reflexivity]. rewrite (proj2 (R c)). cbn [bind N.eqb Pos.eqb].
    rewrite <- app_assoc. cbn [app]. rewrite wr_mid. rewrite <- app_assoc. cbn [app]. replace (c - 97 + 65) with (c - 32) by lia. reflexivity. }
  match goal with |- bind ?e ?k = _ => change (bind e k) with (@bind (list N) _ e k); replace e with (@Ok (list N) ((p ++ upper c :: 58 :: r) ++ 0 :: q)) by (symmetry; exact E) end.
  cbn [bind]. rewrite (proj1 (R (upper c))). cbn [bind].
  destruct (N.leb_spec 65 (upper c)), (N.leb_spec (upper c) 90); try lia. cbn [andb]. rewrite (proj2 (R (upper c))). reflexivity.
Qed.

Lemma drive_none p r q : (forall c r', r = c :: 58 :: r' -> ~ letter c) ->
  drive ((p ++ r) ++ 0 :: q) (length p) = Ok ((p ++ r) ++ 0 :: q, length p, starts false s_vol (p ++ r)).
Proof.
  intro Hc. unfold drive. rewrite rd_text by (rewrite app_length; lia). rewrite app_nth2, Nat.sub_diag by lia. cbn [bind].
  set (b := (p ++ r) ++ 0 :: q). set (c := nth 0 r 0).
  assert (R : letter c -> rd b (S (length p)) = Ok (nth 1 r 0) /\ nth 1 r 0 <> 58).
  { intro L. destruct r as [|c' r]; [cbn in c; subst c; destruct L; lia|]. cbn in c. subst c. split.
    - unfold b. rewrite rd_text by (rewrite app_length; cbn; lia). rewrite app_nth2 by lia. replace (S (length p) - length p)%nat with 1%nat by lia. reflexivity.
    - destruct r as [|d r]; [discriminate|]. cbn. intros ->. exact (Hc c' r eq_refl L). }
  assert (E : (if (97 <=? c) && (c <=? 122) then let* d := rd b (S (length p)) in if d =? 58 then wr b (length p) (c - 97 + 65) else Ok b else Ok b) = Ok b).
  { destruct ((97 <=? c) && (c <=? 122)) eqn:L; [|reflexivity]. destruct R as [-> R]; [right; lia|]. cbn [bind]. destruct (N.eqb_spec (nth 1 r 0) 58); [congruence|reflexivity]. }
  match goal with |- bind ?e ?k = _ => change (bind e k) with (@bind (list N) _ e k); replace e with (@Ok (list N) b) by (symmetry; exact E) end.
  cbn [bind]. replace (rd b (length p)) with (Ok c).
  2:{ symmetry. unfold b. rewrite rd_text by (rewrite app_length; lia). rewrite app_nth2, Nat.sub_diag by lia. reflexivity. }
  cbn [bind].
  assert (E2 : (if (65 <=? c) && (c <=? 90) then let* d := rd b (S (length p)) in Ok (d =? 58) else Ok false) = Ok false).
  { destruct ((65 <=? c) && (c <=? 90)) eqn:L; [|reflexivity]. destruct R as [-> R]; [left; lia|]. cbn [bind]. destruct (N.eqb_spec (nth 1 r 0) 58); [congruence|reflexivity]. }
  rewrite E2. cbn [bind]. unfold b at 1. rewrite pre_text by (try lia; repeat constructor; discriminate). reflexivity.
Qed.

Definition settled (t out q : bytes) (x : res (bytes * bool)) : Prop :=
  (length t + 1 + length q < length out -> exists b', x = Ok (b', false))%nat /\
  (length t + 1 + length q = length out -> x = UB)%nat /\
  ((length out <= length t + length q)%nat -> x = Ok (out ++ 0 :: skipn (length out - length t) q, true)).

Definition acc (sgn : bool) (t r : bytes) : Prop := Forall (okc sgn) r /\ Forall free (looked_at t r).

Definition outcome (sgn : bool) (t r out q : bytes) (x : res (bytes * bool)) : Prop :=
  (acc sgn t r -> settled t out q x) /\ (~ acc sgn t r -> exists b', x = Ok (b', false)).

Lemma settle_keep t q : settled t t q (Ok (t ++ 0 :: q, true)).
Proof. split; [lia|]. split; [lia|]. intros _. rewrite Nat.sub_diag. reflexivity. Qed.

Lemma settle_len t t' out q x : length t = length t' -> settled t out q x -> settled t' out q x.
Proof. intro L. unfold settled. rewrite L. auto. Qed.

Lemma finish_form sgn t w r out q k : length t = length (w ++ r) ->
  (w = [] /\ t = r) \/ (t <> r /\ exists c, In c w /\ (c = 58 \/ c = 92)) ->
  settled t out q k -> outcome sgn t r out q (checked sgn ((w ++ r) ++ 0 :: q) (length t) (length w) k).
Proof.
  intros L Hw Hk. rewrite L. destruct (checked_text sgn w r q k) as [Y Nn].
  assert (P : passes sgn r w <-> acc sgn t r).
  { unfold acc, looked_at. destruct Hw as [[-> ->]|[Hne (c & Hi & Hc)]].
    - destruct (list_eq_dec N.eq_dec r r); [|congruence]. apply (passes_word sgn r []); intros [].
    - destruct (list_eq_dec N.eq_dec t r); [congruence|]. apply (passes_prefix sgn r w c); assumption. }
  split.
  - intro A. apply P in A. rewrite Y by exact A. exact Hk.
  - intro A. rewrite Nn; [eexists; reflexivity|]. intro X. apply A. apply P. exact X.
Qed.

Lemma norm_drive vol t q : nz t -> starts false s_vol t = false \/ (forall x, vol x = None) -> forall unc,
  settled t (s_uni ++ t) q (normalise vol (t ++ 0 :: q) (length t) false unc true).
Proof.
  intros Z H unc. unfold normalise. rewrite app_length. cbn [length].
  destruct (Nat.ltb_spec (length t + S (length q)) (length t + 4)) as [L|L].
  { split; [intros _; eexists; reflexivity|]. change (length (s_uni ++ t)) with (4 + length t)%nat. split; [lia|lia]. }
  pose proof (insert_ok [] t q s_uni) as I. cbn [app length Nat.add] in I. change (length s_uni) with 4%nat in I.
  pose proof (insert_ub [] t q s_uni) as Iu. cbn [app length Nat.add] in Iu. change (length s_uni) with 4%nat in Iu.
  unfold settled. change (length (s_uni ++ t)) with (4 + length t)%nat. split; [lia|]. split.
  - intro E. apply Iu. lia.
  - intro E. replace (4 + length t - length t)%nat with 4%nat by lia.
    specialize (I ltac:(lia)). destruct (memmove (t ++ 0 :: q) 4 0 (length t + 1)) as [b1| |]; try discriminate I. cbn [bind] in I |- *. rewrite I. cbn [bind].
    change (92 :: 92 :: 63 :: 92 :: t) with (s_uni ++ t).
    rewrite resolve_volume_none.
    + reflexivity.
    + apply Forall_app. split; [repeat constructor; discriminate|exact Z].
    + cbn. lia.
    + destruct H as [H|H]; [left|right; exact H]. exact H.
Qed.

Lemma norm_uni vol r q :
  settled (p_uni ++ r) (p_unc ++ r) q (normalise vol ((p_uni ++ r) ++ 0 :: q) (length (p_uni ++ r)) true false false).
Proof.
  unfold normalise. rewrite app_length. cbn [length].
  destruct (Nat.ltb_spec (length (p_uni ++ r) + S (length q)) (length (p_uni ++ r) + 4)) as [L|L].
  { split; [intros _; eexists; reflexivity|]. cbn [app length p_uni p_unc]. split; [lia|lia]. }
  pose proof (insert_ok p_uni r q [85; 78; 67; 92]) as I. pose proof (insert_ub p_uni r q [85; 78; 67; 92]) as Iu.
  unfold settled. cbn [app length p_uni p_unc Nat.add] in *. split; [lia|]. split.
  - intro E. replace (S (S (S (S (length r + 1)))) - 4)%nat with (length r + 1)%nat by lia. apply Iu. lia.
  - intro E. replace (S (S (S (S (length r + 1)))) - 4)%nat with (length r + 1)%nat by lia.
    specialize (I ltac:(lia)). destruct (memmove _ 8 4 _) as [b1| |]; try discriminate I. cbn [bind] in I |- *. rewrite I. cbn [bind].
    replace (S (S (S (S (S (S (S (S (length r)))))))) - S (S (S (S (length r)))))%nat with 4%nat by lia. reflexivity.
Qed.

Lemma norm_net vol r q :
  settled (92 :: 92 :: r) (p_unc ++ r) q (normalise vol ((92 :: 92 :: r) ++ 0 :: q) (length (92 :: 92 :: r)) false false false).
Proof.
  unfold normalise. rewrite !rd_text by (cbn; lia). cbn [nth bind N.eqb Pos.eqb bsl]. rewrite app_length.
  destruct (Nat.ltb_spec (length (92 :: 92 :: r) + length (0 :: q)) (length (92 :: 92 :: r) + 6)) as [L|L].
  { split; [intros _; eexists; reflexivity|]. cbn [app length p_uni p_unc] in *. split; [lia|lia]. }
  pose proof (insert_ok [92] (92 :: r) q [92; 63; 92; 85; 78; 67]) as I. pose proof (insert_ub [92] (92 :: r) q [92; 63; 92; 85; 78; 67]) as Iu.
  unfold settled. cbn [app length p_uni p_unc Nat.add] in *. split; [lia|]. split.
  - intro E. replace (S (S (length r + 1)) - 1)%nat with (S (length r + 1))%nat by lia. apply Iu. lia.
  - intro E. replace (S (S (length r + 1)) - 1)%nat with (S (length r + 1))%nat by lia.
    specialize (I ltac:(lia)). destruct (memmove _ 7 1 _) as [b1| |]; try discriminate I. cbn [bind] in I |- *. rewrite I. cbn [bind].
    replace (S (S (S (S (S (S (S (S (length r)))))))) - S (S (length r)))%nat with 6%nat by lia. reflexivity.
Qed.

Lemma norm_plain vol t q : starts false [92; 92] t = false -> t <> [] ->
  normalise vol (t ++ 0 :: q) (length t) false false false = Ok (t ++ 0 :: q, true).
Proof.
  intros H Hne. unfold normalise. rewrite rd_text by lia. cbn [bind]. destruct (N.eqb_spec (nth 0 t 0) bsl) as [E|E]; [|reflexivity].
  destruct t as [|c t]; [congruence|]. cbn in E. subst c. rewrite rd_text by (cbn; lia). cbn [bind nth].
  destruct t as [|d t]; [reflexivity|]. cbn [starts same] in H. cbn [nth]. change (d =? bsl) with (d =? 92).
  destruct (N.eqb_spec d 92) as [->|_]; [discriminate H|reflexivity].
Qed.

Definition gpf_after (sgn : bool) (vol : bytes -> option N) (unsafe : bool) (b1 : bytes) (y : nat) : res (bytes * bool) :=
  let* d1 := pre true b1 0 s_dev in
  let* d2 := (if d1 then Ok true else pre false b1 0 s_dot) in
  if d2 then Ok (b1, unsafe)
  else
    let* unc := pre true b1 0 s_unc in
    let* uni := (if unc then Ok true else pre false b1 0 s_uni) in
    let* (b2, x2, drv) := drive b1 (if unc then 8%nat else if uni then 4%nat else 0%nat) in
    checked sgn b2 y x2 (normalise vol b2 y uni unc drv).

Lemma gpf_rest_after sgn vol unsafe t q y : gpf_rest sgn vol unsafe (t ++ 0 :: q) y = gpf_after sgn vol unsafe (canon t ++ 0 :: q) y.
Proof. rewrite gpf_rest_eq. exact (nt_step t q (fun b1 => gpf_after sgn vol unsafe b1 y)). Qed.

Lemma gpf_after_text sgn vol unsafe t q y : gpf_after sgn vol unsafe (t ++ 0 :: q) y =
  if starts true s_dev t || starts false s_dot t then Ok (t ++ 0 :: q, unsafe)
  else
    let unc := starts true s_unc t in let uni := unc || starts false s_uni t in
    let* (b2, x2, drv) := drive (t ++ 0 :: q) (if unc then 8%nat else if uni then 4%nat else 0%nat) in
    checked sgn b2 y x2 (normalise vol b2 y uni unc drv).
Proof.
  unfold gpf_after. rewrite !pre_text by (try lia; repeat constructor; discriminate). cbn [skipn bind].
  destruct (starts true s_dev t); [reflexivity|]. cbn [bind orb]. destruct (starts false s_dot t); [reflexivity|]. cbn [bind].
  destruct (starts true s_unc t); [reflexivity|]. cbn [bind orb]. destruct (starts false s_uni t); reflexivity.
Qed.

Lemma letter_same c p : letter c -> p = 92 \/ p = 58 -> forall ci, same ci c p = false.
Proof.
  intros L P ci. destruct ci; unfold same; [rewrite low_upper; pose proof (letter_upper c L) as U|].
  - destruct P as [-> | ->]; [change (upper 92) with 92|change (upper 58) with 58]; lia.
  - unfold letter in L. lia.
Qed.

Lemma upper_sign c p : upper c = p -> (p < 65 \/ 90 < p < 97) -> c = p.
Proof. unfold upper. destruct (N.leb_spec 97 c), (N.leb_spec c 122); cbn [andb]; lia. Qed.

Lemma unc_shape u : map upper u = p_unc -> exists a b c, u = [92; 92; 63; 92; a; b; c; 92] /\ upper a = 85 /\ upper b = 78 /\ upper c = 67.
Proof.
  intro H. unfold p_unc, p_uni in H. cbn [app] in H.
  destruct u as [|c0 [|c1 [|c2 [|c3 [|c4 [|c5 [|c6 [|c7 [|]]]]]]]]]; try discriminate H. cbn [map] in H. injection H as E0 E1 E2 E3 E4 E5 E6 E7.
  apply upper_sign in E0; [|lia]. apply upper_sign in E1; [|lia]. apply upper_sign in E2; [|lia]. apply upper_sign in E3; [|lia]. apply upper_sign in E7; [|lia].
  subst. exists c4, c5, c6. repeat split; assumption.
Qed.

Lemma unc_starts u r : map upper u = p_unc -> length u = 8%nat /\ In 92 u /\
  starts true s_dev (u ++ r) = false /\ starts false s_dot (u ++ r) = false /\ starts true s_unc (u ++ r) = true.
Proof.
  intro H. destruct (unc_shape u H) as (a & b & c & -> & A & B & C). split; [reflexivity|]. split; [left; reflexivity|].
  split; [|split; [reflexivity|]].
  - cbn -[low]. assert (X : same true a 68 = false) by (unfold same; rewrite low_upper, A; reflexivity).
    unfold same in X. rewrite X. reflexivity.
  - apply starts_ci. exists [92; 92; 63; 92; a; b; c; 92], r. split; [reflexivity|]. rewrite H. reflexivity.
Qed.

Lemma begins_dev t : begins s_dev t <-> begins p_dev t.
Proof. unfold begins. split; intros (u & r & E & M); exists u, r; (split; [exact E|]); rewrite M; reflexivity. Qed.

Lemma begins_unc t : begins s_unc t <-> begins p_unc t.
Proof. unfold begins. split; intros (u & r & E & M); exists u, r; (split; [exact E|]); rewrite M; reflexivity. Qed.

Lemma not_true (x : bool) : x <> true -> x = false.
Proof. destruct x; congruence. Qed.

Lemma longer_ne (p r : bytes) : p <> [] -> p ++ r <> r.
Proof. intros H E. apply (f_equal (@length N)) in E. rewrite app_length in E. destruct p; [congruence|cbn in E; lia]. Qed.

Lemma gpf_form sgn vol unsafe t r out q : form t r out -> nz t -> t <> [] -> (begins_with p_vol t -> forall x, vol x = None) ->
  outcome sgn t r out q (gpf_after sgn vol unsafe (t ++ 0 :: q) (length t)).
Proof.
  intros F Z Hne V. rewrite gpf_after_text. cbv zeta. destruct F as [c r L|c r L|u r U D|u c r U L|r D NU ND|r NU ND|r|t NN NV D].
  - (* drive letter *)
    assert (S1 : starts true s_dev (c :: 58 :: r) = false) by (cbn [starts s_dev]; rewrite letter_same by auto; reflexivity).
    assert (S2 : starts false s_dot (c :: 58 :: r) = false) by (cbn [starts s_dot]; rewrite letter_same by auto; reflexivity).
    assert (S3 : starts true s_unc (c :: 58 :: r) = false) by (cbn [starts s_unc]; rewrite letter_same by auto; reflexivity).
    assert (S4 : starts false s_uni (c :: 58 :: r) = false) by (cbn [starts s_uni]; rewrite letter_same by auto; reflexivity).
    rewrite S1, S2, S3, S4. cbn [orb]. pose proof (drive_letter [] c r q L) as Dr. cbn [app length Nat.add] in Dr.
    change ((c :: 58 :: r) ++ 0 :: q) with (c :: 58 :: r ++ 0 :: q). rewrite Dr. cbn [bind].
    change (upper c :: 58 :: r ++ 0 :: q) with (([upper c; 58] ++ r) ++ 0 :: q). change 2%nat with (length [upper c; 58]).
    apply finish_form; [reflexivity| |].
    + right. split; [apply (longer_ne [c; 58]); discriminate|]. exists 58. split; [right; left; reflexivity|left; reflexivity].
    + apply (settle_len (upper c :: 58 :: r)); [reflexivity|]. apply (norm_drive vol (upper c :: 58 :: r) q).
      * constructor; [pose proof (letter_upper c L); lia|exact (Forall_inv_tail Z)].
      * left. cbn [starts s_vol]. cbn -[N.eqb]. rewrite andb_false_r. reflexivity.
  - (* prefix and drive letter *)
    assert (S1 : starts true s_dev (p_uni ++ c :: 58 :: r) = false) by (cbn [p_uni app starts s_dev]; change (same true 58 101) with false; cbn [andb]; rewrite ?andb_false_r; reflexivity).
    assert (S3 : starts true s_unc (p_uni ++ c :: 58 :: r) = false) by (cbn [p_uni app starts s_unc]; change (same true 58 78) with false; cbn [andb]; rewrite ?andb_false_r; reflexivity).
    rewrite S1, S3. replace (starts false s_dot (p_uni ++ c :: 58 :: r)) with false by reflexivity.
    replace (starts false s_uni (p_uni ++ c :: 58 :: r)) with true by reflexivity. cbn [orb].
    change 4%nat with (length p_uni) at 1. rewrite drive_letter by exact L. cbn [bind].
    replace ((p_uni ++ upper c :: 58 :: r) ++ 0 :: q) with (((p_uni ++ [upper c; 58]) ++ r) ++ 0 :: q) by reflexivity.
    change (length p_uni + 2)%nat with (length (p_uni ++ [upper c; 58])).
    apply finish_form; [reflexivity| |].
    + right. split; [apply (longer_ne (p_uni ++ [c; 58])); discriminate|]. exists 92. split; [left; reflexivity|right; reflexivity].
    + apply (settle_len (p_uni ++ upper c :: 58 :: r)); [reflexivity|]. unfold normalise.
      change ((p_uni ++ [upper c; 58]) ++ r) with (p_uni ++ upper c :: 58 :: r).
      rewrite resolve_volume_none; [apply settle_keep| |cbn; lia|].
      * apply Forall_app in Z. destruct Z as [Z1 Z2]. apply Forall_app. split; [exact Z1|]. constructor; [pose proof (letter_upper c L); lia|exact (Forall_inv_tail Z2)].
      * left. cbn -[N.eqb]. rewrite andb_false_r. reflexivity.
  - (* UNC *)
    destruct (unc_starts u r U) as (Lu & I92 & S1 & S2 & S3). rewrite S1, S2, S3. cbn [orb]. rewrite <- Lu. rewrite drive_none by exact D. cbn [bind].
    replace (starts false s_vol (u ++ r)) with false.
    2:{ destruct (unc_shape u U) as (a & b & c & -> & _). reflexivity. }
    apply finish_form; [reflexivity| |].
    + right. split; [apply longer_ne; destruct u; [discriminate U|discriminate]|]. exists 92. split; [exact I92|right; reflexivity].
    + apply settle_keep.
  - (* UNC and drive letter *)
    destruct (unc_starts u (c :: 58 :: r) U) as (Lu & I92 & S1 & S2 & S3). rewrite S1, S2, S3. cbn [orb]. rewrite <- Lu. rewrite drive_letter by exact L. cbn [bind].
    replace ((u ++ upper c :: 58 :: r) ++ 0 :: q) with (((u ++ [upper c; 58]) ++ r) ++ 0 :: q) by (rewrite <- !app_assoc; reflexivity).
    replace (length u + 2)%nat with (length (u ++ [upper c; 58])) by (rewrite app_length; reflexivity).
    apply finish_form.
    + rewrite !app_length. cbn. lia.
    + right. split.
      * intro E. apply (f_equal (@length N)) in E. rewrite app_length in E. cbn in E. lia.
      * exists 92. split; [apply in_or_app; left; exact I92|right; reflexivity].
    + apply (settle_len (u ++ upper c :: 58 :: r)); [rewrite !app_length; reflexivity|]. unfold normalise.
      replace ((u ++ [upper c; 58]) ++ r) with (u ++ upper c :: 58 :: r) by (rewrite <- !app_assoc; reflexivity).
      rewrite resolve_volume_none; [apply settle_keep| |rewrite app_length; lia|].
      * apply Forall_app in Z. destruct Z as [Z1 Z2]. apply Forall_app. split; [exact Z1|]. constructor; [pose proof (letter_upper c L); lia|exact (Forall_inv_tail Z2)].
      * left. destruct (unc_shape u U) as (a & b & d & -> & _ & _ & _). cbn -[N.eqb].
        rewrite !andb_false_r. reflexivity.
  - (* prefix alone *)
    assert (S1 : starts true s_dev (p_uni ++ r) = false) by (apply not_true; intro X; apply starts_ci in X; apply ND; apply begins_dev; exact X).
    assert (S3 : starts true s_unc (p_uni ++ r) = false) by (apply not_true; intro X; apply starts_ci in X; apply NU; apply begins_unc; exact X).
    rewrite S1, S3. replace (starts false s_dot (p_uni ++ r)) with false by reflexivity.
    replace (starts false s_uni (p_uni ++ r)) with true by reflexivity. cbn [orb].
    change 4%nat with (length p_uni). rewrite drive_none by exact D. cbn [bind].
    replace (starts false s_vol (p_uni ++ r)) with false by reflexivity.
    apply finish_form; [reflexivity| |].
    + right. split; [apply longer_ne; discriminate|]. exists 92. split; [left; reflexivity|right; reflexivity].
    + apply norm_uni.
  - (* network name *)
    assert (S4 : starts false s_uni (92 :: 92 :: r) = false) by (apply not_true; intro X; apply starts_cs in X; exact (NU X)).
    assert (S2 : starts false s_dot (92 :: 92 :: r) = false) by (apply not_true; intro X; apply starts_cs in X; exact (ND X)).
    assert (Sx : forall p, starts true (s_uni ++ p) (92 :: 92 :: r) = false).
    { intro p. apply not_true. intro X. apply starts_ci in X. destruct X as (u & r' & E & M). apply NU.
      destruct u as [|c0 [|c1 [|c2 [|c3 u]]]]; try discriminate M. cbn [map app s_uni] in M. injection M as E0 E1 E2 E3 _.
      apply upper_sign in E0, E1, E2, E3; try (cbn; lia). cbn in E0, E1, E2, E3. subst. rewrite E. exists (u ++ r'). reflexivity. }
    pose proof (Sx [68; 101; 118; 105; 99; 101; 92]) as S1. pose proof (Sx [85; 78; 67; 92]) as S3.
    change (s_uni ++ [68; 101; 118; 105; 99; 101; 92]) with s_dev in S1. change (s_uni ++ [85; 78; 67; 92]) with s_unc in S3.
    rewrite S1, S2, S3, S4. cbn [orb]. pose proof (drive_none [] (92 :: 92 :: r) q) as Dr. cbn [app length] in Dr.
    change ((92 :: 92 :: r) ++ 0 :: q) with (92 :: 92 :: r ++ 0 :: q). rewrite Dr by (intros c r' E; injection E as <- E; intros [X|X]; lia). cbn [bind].
    replace (starts false s_vol (92 :: 92 :: r)) with false by reflexivity.
    apply (finish_form sgn (92 :: 92 :: r) [] (92 :: 92 :: r)); [reflexivity| |].
    + left. split; reflexivity.
    + apply norm_net.
  - (* volume *)
    replace (starts true s_dev (p_vol ++ r)) with false by reflexivity. replace (starts false s_dot (p_vol ++ r)) with false by reflexivity.
    replace (starts true s_unc (p_vol ++ r)) with false by reflexivity. replace (starts false s_uni (p_vol ++ r)) with false by reflexivity. cbn [orb].
    pose proof (drive_none [] (p_vol ++ r) q) as Dr. cbn [app length] in Dr. change ([] ++ p_vol ++ r) with (p_vol ++ r) in Dr.
    match type of Dr with _ -> drive ?b _ = _ => change ((p_vol ++ r) ++ 0 :: q) with b end.
    rewrite Dr by (intros c r' E; discriminate E). cbn [bind].
    replace (starts false s_vol _) with true by reflexivity.
    apply (finish_form sgn (p_vol ++ r) [] (p_vol ++ r)); [reflexivity| |].
    + left. split; reflexivity.
    + apply norm_drive; [exact Z|]. right. apply V. exists r. reflexivity.
  - (* neither prefix nor drive letter *)
    assert (S0 : starts false [92; 92] t = false) by (apply not_true; intro X; apply starts_cs in X; exact (NN X)).
    assert (Sx : forall p, starts false ([92; 92] ++ p) t = false).
    { intro p. apply not_true. intro X. apply starts_cs in X. destruct X as (r & ->). apply NN. exists (p ++ r). rewrite <- app_assoc. reflexivity. }
    assert (Sy : forall p, starts true ([92; 92] ++ p) t = false).
    { intro p. apply not_true. intro X. apply starts_ci in X. destruct X as (u & r' & -> & M). apply NN.
      destruct u as [|c0 [|c1 u]]; try discriminate M. cbn [map app] in M. injection M as E0 E1 _.
      apply upper_sign in E0, E1; try (cbn; lia). cbn in E0, E1. subst. exists (u ++ r'). reflexivity. }
    pose proof (Sy [63; 92; 68; 101; 118; 105; 99; 101; 92]) as S1. change ([92; 92] ++ _) with s_dev in S1.
    pose proof (Sy [63; 92; 85; 78; 67; 92]) as S3. change ([92; 92] ++ _) with s_unc in S3.
    pose proof (Sx [63; 92]) as S4. change ([92; 92] ++ _) with s_uni in S4.
    pose proof (Sx [46; 92]) as S2. change ([92; 92] ++ _) with s_dot in S2.
    rewrite S1, S2, S3, S4. cbn [orb]. pose proof (drive_none [] t q) as Dr. cbn [app length] in Dr. rewrite Dr by exact D. cbn [bind].
    replace (starts false s_vol t) with false by (symmetry; apply not_true; intro X; apply starts_cs in X; exact (NV X)).
    apply (finish_form sgn t [] t); [reflexivity| |].
    + left. split; reflexivity.
    + rewrite norm_plain by assumption. apply settle_keep.
Qed.

(** ** Every name has a form *)
Lemma drive_dec (r : bytes) : (exists c r', r = c :: 58 :: r' /\ letter c) \/ (forall c r', r = c :: 58 :: r' -> ~ letter c).
Proof.
  destruct r as [|c [|d r]]; [right; discriminate|right; discriminate|].
  destruct (N.eq_dec d 58) as [->|Hd]; [|right; intros c' r' E; injection E as -> -> ->; congruence].
  destruct ((65 <=? c) && (c <=? 90) || (97 <=? c) && (c <=? 122)) eqn:L.
  - left. exists c, r. split; [reflexivity|]. unfold letter. lia.
  - right. intros c' r' E. injection E as -> ->. unfold letter. lia.
Qed.

Lemma begins_dec p t : begins p t \/ ~ begins p t.
Proof. destruct (starts true p t) eqn:E; [left; apply starts_ci; exact E|right; intro X; apply starts_ci in X; congruence]. Qed.

Lemma begins_with_dec p t : begins_with p t \/ ~ begins_with p t.
Proof. destruct (starts false p t) eqn:E; [left; apply starts_cs; exact E|right; intro X; apply starts_cs in X; congruence]. Qed.

Lemma form_total t : t <> [] -> begins p_dev t \/ begins_with p_dot t \/ exists r out, form t r out.
Proof.
  intro Hne. destruct (begins_dec p_dev t) as [D|D]; [left; exact D|]. right.
  destruct (begins_with_dec p_dot t) as [Dd|Dd]; [left; exact Dd|]. right.
  destruct (begins_with_dec p_uni t) as [[r ->]|U].
  - destruct (begins_dec p_unc (p_uni ++ r)) as [(u & r' & E & M)|NU].
    + change (map upper p_unc) with p_unc in M. rewrite E. destruct (drive_dec r') as [(c & r2 & -> & L)|X].
      * do 2 eexists. apply f_uncdrive; eassumption.
      * do 2 eexists. apply f_unc; eassumption.
    + destruct (drive_dec r) as [(c & r2 & -> & L)|X].
      * do 2 eexists. apply f_unidrive; eassumption.
      * do 2 eexists. apply f_uni; eassumption.
  - destruct (begins_with_dec [92; 92] t) as [[r ->]|NN].
    + do 2 eexists. apply f_net; assumption.
    + destruct (drive_dec t) as [(c & r2 & -> & L)|X].
      * do 2 eexists. apply f_drive; assumption.
      * destruct (begins_with_dec p_vol t) as [[r ->]|NV]; [do 2 eexists; apply f_volume|do 2 eexists; apply f_plain; assumption].
Qed.

Lemma form_length t r out : form t r out -> (length out <= length t + 6)%nat.
Proof. destruct 1; rewrite ?app_length; cbn [length p_uni p_unc p_vol app]; rewrite ?app_length; cbn [length]; lia. Qed.

Lemma okc_spec sgn c : c < 256 -> okc sgn c <-> wallowed sgn c.
Proof.
  intro H. unfold okc, wbad, bad_char, wallowed. cbn [In]. destruct sgn; cbn [andb]; split; intro X; [|lia| |lia].
  - assert (c <> 58 /\ c <> 42 /\ c <> 63 /\ c <> 34 /\ c <> 60 /\ c <> 62 /\ c <> 124) by lia. repeat split; try lia.
  - assert (c <> 58 /\ c <> 42 /\ c <> 63 /\ c <> 34 /\ c <> 60 /\ c <> 62 /\ c <> 124) by lia. repeat split; try lia.
Qed.

Lemma free_spec w : free w <-> ~ is_device w.
Proof. unfold free, is_device. rewrite <- devb_spec. destruct (devb (stem w)); split; congruence. Qed.

Definition facc (sgn : bool) (t r : bytes) : Prop := Forall (wallowed sgn) r /\ Forall (fun w => ~ is_device w) (looked_at t r).

Lemma Forall_iff {A} (P Q : A -> Prop) l : (forall x, In x l -> P x <-> Q x) -> Forall P l <-> Forall Q l.
Proof. intro H. rewrite !Forall_forall. split; intros X x Hx; apply (H x Hx); auto. Qed.

Lemma form_incl t r out : form t r out -> incl r t.
Proof. destruct 1; intros x Hx; try exact Hx; rewrite ?in_app_iff; cbn [In]; try (right; right; exact Hx); right; auto. Qed.

Lemma acc_spec sgn t r out : form t r out -> Forall (fun c => c < 256) t -> acc sgn t r <-> facc sgn t r.
Proof.
  intros F B. unfold acc, facc. rewrite (Forall_iff (okc sgn) (wallowed sgn)).
  - rewrite (Forall_iff free (fun w => ~ is_device w)); [reflexivity|]. intros x _. apply free_spec.
  - intros x Hx. apply okc_spec. rewrite Forall_forall in B. apply B. exact (form_incl _ _ _ F x Hx).
Qed.

(** ** The whole function *)
Lemma win_len s : length (win s) = length s.
Proof. apply map_length. Qed.

Lemma win_nz s : nz s -> nz (win s).
Proof. intro Z. unfold win. apply Forall_map. eapply Forall_impl; [|exact Z]. cbv beta. intros c Hc. destruct (c =? 47); [discriminate|exact Hc]. Qed.

Lemma win_byte s : Forall (fun c => c < 256) s -> Forall (fun c => c < 256) (canon (win s)).
Proof.
  intro Z. assert (W : Forall (fun c => c < 256) (win s)).
  { unfold win. apply Forall_map. eapply Forall_impl; [|exact Z]. cbv beta. intros c Hc. destruct (c =? 47); [reflexivity|exact Hc]. }
  destruct (canon_cases (win s)) as [(r & E & ->)|(_ & ->)]; [|exact W].
  rewrite E in W. apply Forall_app in W. destruct W as [_ W]. apply Forall_app. split; [repeat constructor; discriminate|exact W].
Qed.

Lemma wgpf_good sgn vol b name unsafe : wf_utf8 name -> nz name -> name <> [] -> (length name < length b)%nat ->
  WGetPlatformFilename sgn vol b name unsafe = gpf_after sgn vol unsafe (canon (win name) ++ 0 :: skipn (S (length name)) b) (length (canon (win name))).
Proof.
  intros W Z Hne L. apply wf_zero in W; [|exact Hne]. unfold WGetPlatformFilename. destruct (Nat.ltb_spec (length b) (length name + 1)) as [X|_]; [lia|].
  destruct (Prop_Utf8.C13_wellformed_unchanged (name ++ [0]) b (length b) W) as [lp E]; [rewrite app_length; cbn; lia|].
  match goal with |- context [bind ?e _] => replace e with (Ok (Some (Prop_Utf8.stored b (name ++ [0])), length (name ++ [0]), lp)) by (symmetry; exact E) end.
  cbn [bind]. unfold Prop_Utf8.stored. rewrite <- app_assoc. cbn [app]. rewrite cstr_app by exact Z. cbn [bind].
  destruct (Nat.eqb_spec (length name) 0) as [X|_]; [destruct name; [congruence|discriminate]|].
  destruct (list_eq_dec N.eq_dec name name) as [_|X]; [|congruence]. cbn [orb negb].
  pose proof (slashes_ok name [] (0 :: skipn (length (name ++ [0])) b)) as Lp. cbn [app length] in Lp.
  rewrite Lp. cbn [bind]. rewrite app_length. cbn [length]. rewrite Nat.add_1_r, gpf_rest_after, canon_length, win_len. reflexivity.
Qed.

Lemma wgpf_total sgn vol b name unsafe : ctext name ->
  (exists b', WGetPlatformFilename sgn vol b name unsafe = Ok (b', false)) \/
  (name <> [] /\ exists q, (length name + 1 + length q)%nat = length b /\
   WGetPlatformFilename sgn vol b name unsafe = gpf_after sgn vol unsafe (canon (win name) ++ 0 :: q) (length (canon (win name)))).
Proof.
  intro B0. unfold WGetPlatformFilename. destruct (Nat.ltb_spec (length b) (length name + 1)) as [_|L]; [left; eexists; reflexivity|].
  assert (B : byteList (name ++ [0])).
  { apply Forall_app; split; [|constructor; [reflexivity|constructor]]. eapply Forall_impl; [|exact B0]. cbv beta. intros c Hc. apply Hc. }
  destruct (scan8_exists _ B) as [cps Hs].
  destruct (Prop_Utf8.C12_output_exact Wd1 (name ++ [0]) cps b (length b) (conj B Hs) (le_n _)) as (o & lp & E & K).
  match goal with |- context [bind ?e _] => replace e with (Ok (Some (Prop_Utf8.stored b o), length o, lp)) by (symmetry; exact E) end.
  cbn [bind]. pose proof (keeps_cap _ _ _ _ _ K ltac:(cbn; lia)) as Lo. cbn in Lo.
  destruct (scan8_zero _ _ Hs name eq_refl) as (c0 & -> & Hl).
  destruct (keeps_zero _ _ _ _ K) as [o0 ->]; [cbn; lia|]. unfold Prop_Utf8.stored. rewrite <- app_assoc. cbn [app].
  rewrite app_length in *. cbn [length] in *.
  assert (LL : length (o0 ++ 0 :: skipn (length o0 + 1) b) = length b) by (rewrite app_length; cbn [length]; rewrite skipn_length; lia).
  destruct (cstr_cut o0 (skipn (length o0 + 1) b)) as (s & E1 & _ & q' & E2). rewrite E1. cbn [bind].
  destruct (Nat.eqb_spec (length s) 0) as [_|Hs0]; cbn [orb]; [left; eexists; reflexivity|].
  destruct (list_eq_dec N.eq_dec s name) as [->|_]; cbn [negb]; [|left; eexists; reflexivity].
  right. split; [intros ->; apply Hs0; reflexivity|]. rewrite E2 in *. exists q'. split; [rewrite app_length in LL; cbn [length] in LL; lia|].
  pose proof (slashes_ok name [] (0 :: q')) as Lp. cbn [app length] in Lp.
  rewrite Lp. cbn [bind]. rewrite gpf_rest_after, canon_length, win_len. reflexivity.
Qed.

Lemma ctext_nz s : ctext s -> nz s.
Proof. intro H. eapply Forall_impl; [|exact H]. cbv beta. intros; lia. Qed.
Lemma ctext_byte s : ctext s -> Forall (fun c => c < 256) s.
Proof. intro H. eapply Forall_impl; [|exact H]. cbv beta. intros; lia. Qed.

Lemma canon_ne t : t <> [] -> canon t <> [].
Proof. intros H E. apply (f_equal (@length N)) in E. rewrite canon_length in E. destruct t; [congruence|discriminate]. Qed.
Lemma win_ne t : t <> [] -> win t <> [].
Proof. destruct t; [congruence|discriminate]. Qed.

Lemma device_form t q sgn vol unsafe y : begins p_dev t \/ begins_with p_dot t ->
  gpf_after sgn vol unsafe (t ++ 0 :: q) y = Ok (t ++ 0 :: q, unsafe).
Proof.
  intro H. rewrite gpf_after_text. replace (starts true s_dev t || starts false s_dot t) with true; [reflexivity|]. symmetry. apply orb_true_iff.
  destruct H as [H|H]; [left; apply starts_ci, begins_dev; exact H|right; apply starts_cs; exact H].
Qed.

Lemma acc_dec sgn t r : acc sgn t r \/ ~ acc sgn t r.
Proof.
  unfold acc. destruct (Forall_dec (okc sgn) ltac:(intro; apply bool_dec) r) as [A|A]; [|right; tauto].
  destruct (Forall_dec free ltac:(intro; apply bool_dec) (looked_at t r)) as [B|B]; [left; auto|right; tauto].
Qed.

(** With seven bytes to spare nothing is written outside the buffer. *)
Lemma wgpf_safe sgn vol b name unsafe : ctext name -> (forall x, vol x = None) -> (length name + 7 <= length b)%nat ->
  exists b' ok, WGetPlatformFilename sgn vol b name unsafe = Ok (b', ok).
Proof.
  intros C V L. destruct (wgpf_total sgn vol b name unsafe C) as [[b' E]|(Hne & q & Lq & E)]; [rewrite E; eauto|]. rewrite E.
  pose proof (canon_ne _ (win_ne _ Hne)) as Hc. pose proof (canon_nz _ (win_nz _ (ctext_nz _ C))) as Z.
  pose proof (canon_length (win name)) as Lc. rewrite win_len in Lc. set (t := canon (win name)) in *. clearbody t. clear E C.
  destruct (form_total t Hc) as [D|[D|(r & out & F)]]; [rewrite device_form by (left; exact D); eauto|rewrite device_form by (right; exact D); eauto|].
  destruct (gpf_form sgn vol unsafe t r out q F Z Hc (fun _ => V)) as [Y Nn].
  destruct (acc_dec sgn t r) as [A|A].
  - destruct (Y A) as (_ & _ & S). rewrite S; [eauto|]. pose proof (form_length _ _ _ F). lia.
  - destruct (Nn A) as [b' ->]. eauto.
Qed.

(** ** Normalising twice *)
Definition volume_free (t : bytes) : Prop := ~ begins_with p_vol t.

Lemma canon_canon t : canon (canon t) = canon t.
Proof.
  destruct (canon_cases t) as [(r & _ & ->)|(S & ->)]; [reflexivity|]. destruct (canon_cases t) as [(r & E & _)|(_ & E)]; [|exact E].
  exfalso. rewrite E in S. discriminate S.
Qed.

Lemma okc_nocolon sgn r : Forall (okc sgn) r -> forall c r', r = c :: 58 :: r' -> ~ letter c.
Proof. intros F c r' -> _. apply Forall_inv_tail, Forall_inv in F. unfold okc, wbad in F. rewrite orb_true_r in F. discriminate F. Qed.

Lemma form_again sgn t r out : form t r out -> volume_free t -> canon t = t -> acc sgn t r ->
  exists r', form out r' out /\ acc sgn out r' /\ canon out = out.
Proof.
  intros F V C A. unfold acc, looked_at in A |- *. destruct F as [c r L|c r L|u r U D|u c r U L|r D NU ND|r NU ND|r|t NN NV D].
  - exists r. destruct (list_eq_dec N.eq_dec (c :: 58 :: r) r) as [X|_]; [exfalso; exact (longer_ne [c; 58] r ltac:(discriminate) X)|].
    destruct (list_eq_dec N.eq_dec (p_uni ++ upper c :: 58 :: r) r) as [X|_]; [exfalso; exact (longer_ne (p_uni ++ [upper c; 58]) r ltac:(discriminate) X)|].
    split; [|split; [exact A|reflexivity]]. rewrite <- (upper_upper c) at 2. apply f_unidrive. pose proof (letter_upper c L). left. lia.
  - exists r. destruct (list_eq_dec N.eq_dec (p_uni ++ c :: 58 :: r) r) as [X|_]; [exfalso; exact (longer_ne (p_uni ++ [c; 58]) r ltac:(discriminate) X)|].
    destruct (list_eq_dec N.eq_dec (p_uni ++ upper c :: 58 :: r) r) as [X|_]; [exfalso; exact (longer_ne (p_uni ++ [upper c; 58]) r ltac:(discriminate) X)|].
    split; [|split; [exact A|reflexivity]]. rewrite <- (upper_upper c) at 2. apply f_unidrive. pose proof (letter_upper c L). left. lia.
  - exists r. split; [apply f_unc; assumption|]. split; [exact A|exact C].
  - exists r. rewrite (app_assoc u [c; 58] r : u ++ c :: 58 :: r = (u ++ [c; 58]) ++ r) in A.
    destruct (list_eq_dec N.eq_dec ((u ++ [c; 58]) ++ r) r) as [X|_]; [exfalso; apply (longer_ne (u ++ [c; 58]) r); [destruct u; discriminate|exact X]|].
    destruct (list_eq_dec N.eq_dec (u ++ upper c :: 58 :: r) r) as [X|_].
    { exfalso. apply (f_equal (@length N)) in X. rewrite app_length in X. cbn in X. lia. }
    split; [|split; [exact A|]].
    + rewrite <- (upper_upper c) at 2. apply f_uncdrive; [exact U|]. pose proof (letter_upper c L). left. lia.
    + destruct (unc_shape u U) as (a & b & d & -> & _). reflexivity.
  - exists r. destruct (list_eq_dec N.eq_dec (p_uni ++ r) r) as [X|_]; [exfalso; exact (longer_ne p_uni r ltac:(discriminate) X)|].
    destruct (list_eq_dec N.eq_dec (p_unc ++ r) r) as [X|_]; [exfalso; exact (longer_ne p_unc r ltac:(discriminate) X)|].
    split; [apply f_unc; [reflexivity|exact D]|]. split; [exact A|reflexivity].
  - exists r. destruct (list_eq_dec N.eq_dec (92 :: 92 :: r) (92 :: 92 :: r)) as [_|X]; [|congruence].
    destruct (list_eq_dec N.eq_dec (p_unc ++ r) r) as [X|_]; [exfalso; exact (longer_ne p_unc r ltac:(discriminate) X)|].
    destruct A as [A1 A2]. apply Forall_inv_tail, Forall_inv_tail in A1. split; [apply f_unc; [reflexivity|exact (okc_nocolon _ _ A1)]|].
    split; [|reflexivity]. split; [exact A1|]. cbn in A2. apply Forall_inv_tail, Forall_inv_tail in A2. destruct (wsplit r); [constructor|exact (Forall_inv_tail A2)].
  - exfalso. apply V. exists r. reflexivity.
  - exists t. split; [apply f_plain; assumption|]. split; [exact A|exact C].
Qed.

Lemma form_chars (P : N -> Prop) t r out : form t r out -> (forall c, P c -> P (upper c)) -> Forall P p_unc -> Forall P t -> Forall P out.
Proof.
  intros F Hu Hp Ht. assert (Hq : Forall P p_uni) by (apply Forall_app in Hp; apply Hp).
  destruct F; repeat match goal with
    | H : Forall P (_ ++ _) |- _ => apply Forall_app in H; destruct H
    | H : Forall P (_ :: _) |- _ => let A := fresh in pose proof (Forall_inv H) as A; apply Forall_inv_tail in H end;
    repeat (apply Forall_app; split); repeat (assumption || (constructor; [solve [auto]|])); apply Forall_app in Hp; apply Hp.
Qed.

Lemma ascii_wf l : Forall (fun c => 32 <= c < 127) l -> wf_utf8 l.
Proof.
  intro F. exists l. split.
  - split.
    + eapply Forall_impl; [|exact F]. cbv beta. intros c Hc. unfold allowed. split; [lia|]. split; [lia|]. split; [lia|].
      rewrite N.mod_small; lia.
    + destruct l as [|c name]; [exact I|]. apply Forall_inv in F. unfold combining. lia.
  - unfold text. induction l as [|c name IH]; [reflexivity|]. cbn [app map concat]. rewrite <- IH by exact (Forall_inv_tail F).
    apply Forall_inv in F. unfold enc8. destruct (N.ltb_spec c 128); [reflexivity|lia].
Qed.

Lemma win_id s : ~ In 47 s -> win s = s.
Proof.
  unfold win. intro H. induction s as [|c s IH]; [reflexivity|]. cbn. rewrite IH by (intro X; apply H; right; exact X).
  destruct (N.eqb_spec c 47) as [->|_]; [exfalso; apply H; left; reflexivity|reflexivity].
Qed.

Lemma win_vol name : begins_with p_vol (canon (win name)) -> begins_with p_vol name.
Proof.
  intros [r E]. destruct (canon_cases (win name)) as [(r' & _ & E2)|(_ & E2)]; [rewrite E2 in E; discriminate E|].
  rewrite E2 in E. clear E2.
  assert (H : forall p, ~ In 92 p -> forall n, win n = p ++ r -> exists r', n = p ++ r').
  { induction p as [|c p IH]; intros Hp n En; [exists n; reflexivity|]. destruct n as [|a n]; [discriminate|].
    unfold win in En. cbn [map app] in En. injection En as E1 E2. destruct (N.eqb_spec a 47) as [->|]; [exfalso; apply Hp; left; congruence|].
    subst a. destruct (IH (fun X => Hp (or_intror X)) n E2) as [r' ->]. exists r'. reflexivity. }
  destruct (H p_vol) with (n := name) as [r' ->]; [cbn; lia|exact E|]. exists r'. reflexivity.
Qed.

Lemma cut_eq (s out q q2 : bytes) : s ++ 0 :: q = out ++ 0 :: q2 -> ~ In 0 s -> ~ In 0 out -> s = out.
Proof.
  revert out. induction s as [|c s IH]; intros [|d out] E Hs Ho; [reflexivity| | |].
  - cbn in E. injection E as E _. exfalso. apply Ho. left. congruence.
  - cbn in E. injection E as E _. exfalso. apply Hs. left. congruence.
  - cbn in E. injection E as -> E. f_equal. apply (IH out E); intro X; [apply Hs|apply Ho]; right; exact X.
Qed.

Lemma form_grows t r out : form t r out -> (length t <= length out)%nat.
Proof. destruct 1; rewrite ?app_length; cbn [length p_uni p_unc p_vol app]; rewrite ?app_length; cbn [length]; lia. Qed.

Lemma form_novol t r out : form t r out -> volume_free t -> volume_free out.
Proof.
  intros F V [r3 X]. destruct F as [c r L|c r L|u r U D|u c r U L|r D NU ND|r NU ND|r|t NN NV D]; try discriminate X.
  - destruct (unc_shape u U) as (a & b & c & -> & _). discriminate X.
  - destruct (unc_shape u U) as (a & b & d & -> & _). discriminate X.
  - apply NV. exists r3. exact X.
Qed.
