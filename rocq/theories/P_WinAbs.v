(** Windows absolute file names: the code is the POSIX one behind the volume, with backslashes
    for slashes. *)
From Verif Require Import Base S_Utf8 M_Utf8 P_Utf8 S_Path M_Path P_MixedVar P_AppInfo P_Path S_WinPath M_WinPath P_WinPath.
Open Scope N_scope.

Definition swap (c : N) : N := if c =? 47 then 92 else if c =? 92 then 47 else c.
Definition sw (s : bytes) : bytes := map swap s.

Lemma swap_swap c : swap (swap c) = c.
Proof. unfold swap. destruct (N.eqb_spec c 47) as [->|]; [reflexivity|]. destruct (N.eqb_spec c 92) as [->|]; [reflexivity|]. destruct (N.eqb_spec c 47), (N.eqb_spec c 92); congruence. Qed.
Lemma sw_sw s : sw (sw s) = s.
Proof. unfold sw. rewrite map_map. rewrite <- (map_id s) at 2. apply map_ext. apply swap_swap. Qed.
Lemma sw_len s : length (sw s) = length s.
Proof. apply map_length. Qed.
Lemma sw_app a b : sw (a ++ b) = sw a ++ sw b.
Proof. apply map_app. Qed.
Lemma sw_nth s i : nth i (sw s) 0 = swap (nth i s 0).
Proof. change 0 with (swap 0) at 1. apply map_nth. Qed.
Lemma swap_47 c : (swap c =? 47) = (c =? 92).
Proof. unfold swap. destruct (N.eqb_spec c 47) as [->|]; [reflexivity|]. destruct (N.eqb_spec c 92) as [->|]; [reflexivity|]. lia. Qed.
Lemma swap_dot c : (swap c =? 46) = (c =? 46).
Proof. unfold swap. destruct (N.eqb_spec c 47) as [->|]; [reflexivity|]. destruct (N.eqb_spec c 92) as [->|]; [reflexivity|]. reflexivity. Qed.
Lemma swap_inj a b : swap a = swap b -> a = b.
Proof. intro E. rewrite <- (swap_swap a), E. apply swap_swap. Qed.
Lemma sw_inj a b : sw a = sw b -> a = b.
Proof. intro E. rewrite <- (sw_sw a), E. apply sw_sw. Qed.

Lemma wremove_sim n : forall s, (length s <= n)%nat -> sw (wremove_dots s) = remove_dots (sw s).
Proof.
  induction n as [|n IH]; intros s Hn; [destruct s; [reflexivity|cbn in Hn; lia]|].
  destruct s as [|c [|a [|b t]]]; [reflexivity|reflexivity| |].
  - cbn [wremove_dots remove_dots sw map]. change slash with 47. change dot with 46. rewrite swap_47, swap_dot. change bsl with 92.
    destruct ((c =? 92) && (a =? 46)); reflexivity.
  - change (sw (c :: a :: b :: t)) with (swap c :: swap a :: swap b :: sw t).
    cbn [length] in Hn. pose proof (IH (b :: t) ltac:(cbn; lia)) as I1. pose proof (IH (a :: b :: t) ltac:(cbn; lia)) as I2.
    change (wremove_dots (c :: a :: b :: t)) with (if (c =? 92) && (a =? 46) && (b =? 92) then wremove_dots (b :: t) else c :: wremove_dots (a :: b :: t)).
    change (remove_dots (swap c :: swap a :: swap b :: sw t)) with
      (if (swap c =? 47) && (swap a =? 46) && (swap b =? 47) then remove_dots (sw (b :: t)) else swap c :: remove_dots (sw (a :: b :: t))).
    rewrite !swap_47, swap_dot. destruct ((c =? 92) && (a =? 46) && (b =? 92)); [exact I1|]. cbn [sw map]. fold (sw (wremove_dots (a :: b :: t))). rewrite I2. reflexivity.
Qed.

Lemma wclose_sim s : wclose_dotdot s = option_map sw (close_dotdot (sw s)).
Proof.
  unfold wclose_dotdot, close_dotdot. rewrite sw_len, !sw_nth. change slash with 47. change dot with 46. change bsl with 92. rewrite swap_47, !swap_dot.
  destruct (_ && _); [|cbn; rewrite sw_sw; reflexivity]. destruct (LIM <=? length s)%nat; [reflexivity|]. cbn. rewrite sw_app, sw_sw. reflexivity.
Qed.

Lemma upd_else (b : bytes) : forall i j c, i <> j -> nth j (upd b i c) 0 = nth j b 0.
Proof. induction b as [|x b IH]; intros [|i] [|j] c H; cbn; try reflexivity; [congruence|]. apply IH. congruence. Qed.

Section Behind.
Variables (v pad : bytes).
Notation sp := (length v).

Lemma nth_behind b i : nth (sp + i) (v ++ b) 0 = nth i b 0.
Proof. rewrite app_nth2 by lia. f_equal. lia. Qed.

Lemma nth_pad b i : (i < length b)%nat -> nth i (sw b ++ pad) 0 = swap (nth i b 0).
Proof. intro H. rewrite app_nth1 by (rewrite sw_len; exact H). apply sw_nth. Qed.

Lemma wdrop_bs_sim b : forall len, (len <= length b)%nat -> wdrop_bs sp (v ++ b) (sp + len) = (sp + drop_slashes (sw b ++ pad) len)%nat.
Proof.
  induction len as [|l IH]; intro H.
  - rewrite Nat.add_0_r. cbn [drop_slashes]. destruct sp as [|k] eqn:E; [reflexivity|]. cbn [wdrop_bs]. rewrite Nat.ltb_irrefl. lia.
  - rewrite Nat.add_succ_r. cbn [wdrop_bs drop_slashes]. destruct (Nat.ltb_spec sp (S (sp + l))); [|lia].
    rewrite nth_behind, nth_pad by lia. change slash with 47. rewrite swap_47. change bsl with 92. destruct (nth l b 0 =? 92); [apply IH; lia|lia].
Qed.

Lemma wdrop_name_sim b : forall len, (len <= length b)%nat -> wdrop_name sp (v ++ b) (sp + len) = (sp + drop_name (sw b ++ pad) len)%nat.
Proof.
  induction len as [|l IH]; intro H.
  - rewrite Nat.add_0_r. cbn [drop_name]. destruct sp as [|k] eqn:E; [reflexivity|]. cbn [wdrop_name]. rewrite Nat.ltb_irrefl. lia.
  - rewrite Nat.add_succ_r. cbn [wdrop_name drop_name]. destruct (Nat.ltb_spec sp (S (sp + l))); [|lia].
    rewrite nth_behind, nth_pad by lia. change slash with 47. rewrite swap_47. change bsl with 92. destruct (nth l b 0 =? 92); [lia|apply IH; lia].
Qed.

Lemma drop_le b len : (drop_name b (drop_slashes b len) <= len)%nat.
Proof.
  assert (A : forall l, (drop_slashes b l <= l)%nat) by (induction l as [|l IH]; cbn; [lia|]; destruct (_ =? _); lia).
  assert (B : forall l, (drop_name b l <= l)%nat) by (induction l as [|l IH]; cbn; [lia|]; destruct (_ =? _); lia).
  specialize (A len). specialize (B (drop_slashes b len)). lia.
Qed.

Lemma upd_sim b len c : (len < length b)%nat -> upd (sw b ++ pad) len (swap c) = sw (upd b len c) ++ pad.
Proof.
  intro H. rewrite upd_app_l by (rewrite sw_len; exact H). f_equal. revert len H. induction b as [|x b IH]; intros [|l] H; cbn in *; try lia; [reflexivity|].
  f_equal. apply IH. lia.
Qed.

Lemma wparse_sim n : forall r, (length r <= n)%nat -> forall b len B len', (sp + len + length r <= LIM)%nat -> (len + length r <= length b)%nat ->
  parse (sw r) (sw b ++ pad) len = Ok (Some (B, len')) ->
  exists b', B = sw b' ++ pad /\ length b' = length b /\ wparse sp r (v ++ b) (sp + len) = Ok (Some (v ++ b', sp + len')%nat) /\
    (forall i, (len + length r <= i)%nat -> nth i b' 0 = nth i b 0) /\ (len' <= len + length r)%nat.
Proof.
  induction n as [|n IH]; intros r Hn b len B len' H1 H2 E.
  { destruct r; [|cbn in Hn; lia]. cbn in E. injection E as <- <-. exists b. cbn [length]. repeat split; lia. }
  destruct r as [|c r1]; [cbn in E; injection E as <- <-; exists b; cbn [length]; repeat split; lia|].
  cbn [length] in Hn, H1, H2.
  assert (Put : (if (LIM <=? len)%nat then Ok None else let* b1 := wr (sw b ++ pad) len (swap c) in parse (sw r1) b1 (S len)) = Ok (Some (B, len')) ->
    exists b', B = sw b' ++ pad /\ length b' = length b /\
    (if (LIM <=? sp + len)%nat then Ok None else let* b1 := wr (v ++ b) (sp + len) c in wparse sp r1 b1 (S (sp + len))) = Ok (Some (v ++ b', sp + len')%nat) /\
    (forall i, (len + S (length r1) <= i)%nat -> nth i b' 0 = nth i b 0) /\ (len' <= len + S (length r1))%nat).
  { destruct (Nat.leb_spec LIM len); [discriminate|]. destruct (Nat.leb_spec LIM (sp + len)); [lia|].
    rewrite wr_in by (rewrite app_length, sw_len; lia). cbn [bind]. rewrite upd_sim by lia. intro P.
    destruct (IH r1 ltac:(lia) (upd b len c) (S len) B len' ltac:(lia) ltac:(rewrite upd_length; lia) P) as (b' & -> & L & W & K & K2).
    exists b'. split; [reflexivity|]. rewrite upd_length in L. split; [exact L|].
    rewrite wr_in by (rewrite app_length; lia). cbn [bind]. rewrite upd_app_r by lia. replace (sp + len - sp)%nat with len by lia.
    rewrite Nat.add_succ_r in W. split; [exact W|]. split; [|lia]. intros i Hi. rewrite K by lia. apply upd_else. lia. }
  destruct r1 as [|a [|a2 [|a3 t]]]; [exact (Put E)|exact (Put E)|exact (Put E)|].
  change (sw (c :: a :: a2 :: a3 :: t)) with (swap c :: swap a :: swap a2 :: swap a3 :: sw t) in E.
  change (parse (swap c :: swap a :: swap a2 :: swap a3 :: sw t) (sw b ++ pad) len) with
    (if (swap c =? 47) && (swap a =? 46) && (swap a2 =? 46) && (swap a3 =? 47)
     then parse (sw (a3 :: t)) (sw b ++ pad) (drop_name (sw b ++ pad) (drop_slashes (sw b ++ pad) len))
     else if (LIM <=? len)%nat then Ok None else let* b1 := wr (sw b ++ pad) len (swap c) in parse (sw (a :: a2 :: a3 :: t)) b1 (S len)) in E.
  rewrite !swap_47, !swap_dot in E.
  change (wparse sp (c :: a :: a2 :: a3 :: t) (v ++ b) (sp + len)) with
    (if (c =? 92) && (a =? 46) && (a2 =? 46) && (a3 =? 92)
     then wparse sp (a3 :: t) (v ++ b) (wdrop_name sp (v ++ b) (wdrop_bs sp (v ++ b) (sp + len)))
     else if (LIM <=? sp + len)%nat then Ok None else let* b1 := wr (v ++ b) (sp + len) c in wparse sp (a :: a2 :: a3 :: t) b1 (S (sp + len))).
  destruct ((c =? 92) && (a =? 46) && (a2 =? 46) && (a3 =? 92)); [|exact (Put E)].
  pose proof (drop_le (sw b ++ pad) len) as DL.
  assert (DS : (drop_slashes (sw b ++ pad) len <= len)%nat) by (clear; induction len as [|l IH]; cbn; [lia|]; destruct (_ =? _); lia).
  rewrite wdrop_bs_sim by lia. rewrite wdrop_name_sim by lia.
  cbn [length] in *.
  destruct (IH (a3 :: t) ltac:(cbn; lia) b (drop_name (sw b ++ pad) (drop_slashes (sw b ++ pad) len)) B len' ltac:(cbn [length]; lia) ltac:(cbn [length]; lia) E) as (b' & P1 & P2 & P3 & P4 & P5).
  exists b'. split; [exact P1|]. split; [exact P2|]. split; [exact P3|]. cbn [length] in *. split; [|lia]. intros i Hi. apply P4. lia.
Qed.

Lemma rd_behind b i : (i < length b)%nat -> rd (v ++ b) (sp + i) = Ok (nth i b 0).
Proof. intro H. rewrite (rd_in _ _ 0) by (rewrite app_length; lia). rewrite nth_behind. reflexivity. Qed.

Lemma rd_pad b i : (i < length b)%nat -> rd (sw b ++ pad) i = Ok (swap (nth i b 0)).
Proof. intro H. rewrite (rd_in _ _ 0) by (rewrite app_length, sw_len; lia). rewrite nth_pad by exact H. reflexivity. Qed.

Lemma wskip_sim b : nth (length b - 1) b 0 <> 92 -> forall fuel x x', (x < length b)%nat ->
  skip_slashes fuel (sw b ++ pad) x = Ok x' -> (x' < length b)%nat /\ wskip fuel (v ++ b) (sp + x) = Ok (sp + x')%nat.
Proof.
  intro Hl. induction fuel as [|g IH]; intros x x' Hx E; [discriminate|]. cbn [skip_slashes wskip] in *.
  rewrite rd_pad in E by exact Hx. rewrite rd_behind by exact Hx. cbn [bind] in *. change slash with 47 in *. rewrite swap_47 in E. change bsl with 92.
  destruct (N.eqb_spec (nth x b 0) 92) as [E9|E9]; [|injection E as <-; auto].
  assert (Hx2 : (S x < length b)%nat) by (destruct (Nat.eq_dec x (length b - 1)) as [->|]; [congruence|lia]).
  rewrite rd_pad in E by exact Hx2. rewrite <- Nat.add_succ_r, rd_behind by exact Hx2. cbn [bind] in *. rewrite swap_47 in E.
  destruct (nth (S x) b 0 =? 92); [apply IH; assumption|injection E as <-; auto].
Qed.

Lemma wcopy_sim b len : nth (length b - 1) b 0 <> 92 -> (len < length b)%nat -> forall fuel x R R0 x2 r y, length R0 = sp ->
  copy_out fuel (sw b ++ pad) len x (sw R) x2 = Ok (r, y) -> length (v ++ b) = length (sw b ++ pad) ->
  wcopy_out fuel (v ++ b) (sp + len) (sp + x) (R0 ++ R) (sp + x2) = Ok (R0 ++ sw r, (sp + y)%nat).
Proof.
  intros Hl Hlen. induction fuel as [|g IH]; intros x R R0 x2 r y L0 E LL; [discriminate|]. cbn [copy_out wcopy_out] in *.
  rewrite app_length, L0. rewrite sw_len in E.
  replace (sp + x2 <? sp + length R)%nat with (x2 <? length R)%nat by (destruct (Nat.ltb_spec x2 (length R)), (Nat.ltb_spec (sp + x2) (sp + length R)); lia).
  replace (sp + x <? sp + len)%nat with (x <? len)%nat by (destruct (Nat.ltb_spec x len), (Nat.ltb_spec (sp + x) (sp + len)); lia).
  destruct ((x2 <? length R)%nat && (x <? len)%nat) eqn:C; [|injection E as <- <-; rewrite sw_sw; reflexivity].
  apply andb_true_iff in C. destruct C as [C1 C2]. apply Nat.ltb_lt in C1, C2.
  destruct (skip_slashes (S (length (sw b ++ pad))) (sw b ++ pad) x) as [x'| |] eqn:Es; try discriminate E. cbn [bind] in E.
  destruct (wskip_sim b Hl _ x x' ltac:(lia) Es) as [Hx' Ws]. rewrite LL, Ws. cbn [bind]. rewrite rd_pad in E by exact Hx'. rewrite rd_behind by exact Hx'. cbn [bind] in *.
  rewrite wr_in in E by (rewrite sw_len; lia). rewrite wr_in by (rewrite app_length; lia). cbn [bind] in *.
  rewrite upd_app_r by lia. replace (sp + x2 - length R0)%nat with x2 by lia.
  assert (Eu : upd (sw R) x2 (swap (nth x' b 0)) = sw (upd R x2 (nth x' b 0))).
  { pose proof (upd_sim R x2 (nth x' b 0) ltac:(lia)) as U. rewrite upd_app_l in U by (rewrite sw_len; lia). apply app_inv_tail in U. exact U. }
  rewrite Eu in E. rewrite <- !Nat.add_succ_r. apply (IH (S x') (upd R x2 (nth x' b 0)) R0 (S x2) r y L0 E LL).
Qed.

Lemma wsane_sim R : forall n x o, sane n (sw R) x = Ok o -> wsane n (v ++ R) (sp + x) = Ok o.
Proof.
  assert (Rd : forall i c, rd (sw R) i = Ok c -> rd (v ++ R) (sp + i) = Ok (swap c)).
  { intros i c E. unfold rd in *. unfold sw in E. rewrite nth_error_map in E. rewrite nth_error_app2 by lia. replace (sp + i - sp)%nat with i by lia.
    destruct (nth_error R i); [|discriminate]. cbn in E. injection E as <-. rewrite swap_swap. reflexivity. }
  induction n as [|n IH]; intros x o E; [exact E|]. cbn [sane wsane] in *.
  destruct (rd (sw R) x) as [c| |] eqn:E0; try discriminate E. rewrite (Rd _ _ E0). cbn [bind] in *.
  change slash with 47 in *. change dot with 46 in *. change bsl with 92.
  assert (S47 : forall z, (swap z =? 92) = (z =? 47)) by (intro z; rewrite <- swap_47, swap_swap; reflexivity).
  rewrite S47. rewrite <- Nat.add_succ_r. destruct (c =? 47); [|apply IH; exact E].
  destruct (rd (sw R) (x + 1)) as [c1| |] eqn:E1; try discriminate E. rewrite <- Nat.add_assoc, (Rd _ _ E1). cbn [bind] in *. rewrite swap_dot.
  destruct (c1 =? 46); [|apply IH; exact E].
  destruct (rd (sw R) (x + 2)) as [c2| |] eqn:E2; try discriminate E. rewrite <- Nat.add_assoc, (Rd _ _ E2). cbn [bind] in *. rewrite S47, swap_dot.
  destruct (c2 =? 47); [exact E|]. destruct (c2 =? 46); [|apply IH; exact E].
  destruct (rd (sw R) (x + 3)) as [c3| |] eqn:E3; try discriminate E. rewrite <- Nat.add_assoc, (Rd _ _ E3). cbn [bind] in *. rewrite S47.
  destruct (c3 =? 47); [exact E|apply IH; exact E].
Qed.

(** Nothing in the volume looks like a dot component. *)
Lemma wsane_skip R : (forall i, (i < sp)%nat -> nth i v 0 = 92 -> (S i < sp)%nat /\ nth (S i) v 0 <> 46) ->
  forall n k x, (x + k = sp)%nat -> wsane (k + n) (v ++ R) x = wsane n (v ++ R) sp.
Proof.
  intros H n. induction k as [|k IH]; intros x E; [replace x with sp by lia; reflexivity|].
  cbn [Nat.add wsane]. rewrite (rd_in _ _ 0) by (rewrite app_length; lia). rewrite app_nth1 by lia. cbn [bind]. change bsl with 92.
  destruct (N.eqb_spec (nth x v 0) 92) as [E9|E9]; [|apply IH; lia].
  destruct (H x ltac:(lia) E9) as [H1 H2]. rewrite (rd_in _ _ 0) by (rewrite app_length; lia). rewrite Nat.add_1_r, app_nth1 by lia. cbn [bind]. change dot with 46.
  destruct (N.eqb_spec (nth (S x) v 0) 46) as [X|_]; [contradiction|]. apply IH. lia.
Qed.

Lemma copy_out_mono fuel : forall b len x R x2 r y, copy_out fuel b len x R x2 = Ok (r, y) -> (x2 <= y)%nat /\ length r = length R.
Proof.
  induction fuel as [|g IH]; intros b len x R x2 r y E; [discriminate|]. cbn [copy_out] in E.
  destruct (_ && _); [|injection E as <- <-; split; lia]. destruct (skip_slashes _ _ _) as [x'| |]; try discriminate E. cbn [bind] in E.
  destruct (rd b x') as [c| |]; try discriminate E. cbn [bind] in E. unfold wr in E. destruct (x2 <? length R)%nat; [|discriminate E]. cbn [bind] in E.
  apply IH in E. rewrite upd_length in E. lia.
Qed.

Lemma wr_sim R0 R i c r : length R0 = sp -> wr (sw R) i (swap c) = Ok r -> wr (R0 ++ R) (sp + i) c = Ok (R0 ++ sw r) /\ length r = length R.
Proof.
  intros L0 E. unfold wr in *. rewrite sw_len in E. destruct (Nat.ltb_spec i (length R)); [|discriminate]. injection E as <-.
  rewrite app_length, L0. destruct (Nat.ltb_spec (sp + i) (sp + length R)); [|lia]. rewrite upd_app_r by lia. replace (sp + i - length R0)%nat with i by lia.
  assert (Eu : upd (sw R) i (swap c) = sw (upd R i c)).
  { pose proof (upd_sim R i c ltac:(lia)) as U. rewrite upd_app_l in U by (rewrite sw_len; lia). apply app_inv_tail in U. exact U. }
  rewrite Eu, sw_sw, sw_len, upd_length. split; reflexivity.
Qed.

Lemma rd_sim R0 R i c : length R0 = sp -> rd (sw R) i = Ok c -> rd (R0 ++ R) (sp + i) = Ok (swap c).
Proof.
  intros L0 E. unfold rd in *. unfold sw in E. rewrite nth_error_map in E. rewrite nth_error_app2 by lia. replace (sp + i - length R0)%nat with i by lia.
  destruct (nth_error R i); [|discriminate]. cbn in E. injection E as <-. rewrite swap_swap. reflexivity.
Qed.

Lemma wfinish_sim b len R trailing r ok : nth (length b - 1) b 0 <> 92 -> (0 < len)%nat -> (len < length b)%nat -> (0 < length R)%nat ->
  (forall i, (i < sp)%nat -> nth i v 0 = 92 -> (S i < sp)%nat /\ nth (S i) v 0 <> 46) ->
  length (v ++ b) = length (sw b ++ pad) ->
  forall R0, length R0 = sp ->
  M_Path.finish (sw b ++ pad) len (sw R) trailing = Ok (r, true) -> ok = true ->
  wfinish sp (v ++ b) (sp + len) (R0 ++ R) trailing = Ok (v ++ sw r, ok).
Proof.
  intros Hl H0 Hlen HR Hv LL R0 L0 E ->. unfold wfinish. rewrite app_length, L0, Nat.min_r by lia.
  unfold slice. destruct (Nat.leb_spec (0 + sp) (length (v ++ b))) as [_|X]; [|rewrite app_length in X; lia]. cbn [bind skipn].
  rewrite firstn_app, firstn_all, Nat.sub_diag. cbn [firstn]. rewrite app_nil_r.
  unfold blit. destruct (Nat.leb_spec (0 + length v) (length (R0 ++ R))) as [_|X]; [|rewrite app_length in X; lia]. cbn [firstn app Nat.add bind].
  replace (skipn (length v) (R0 ++ R)) with R by (rewrite <- L0; symmetry; apply skipn_mid).
  unfold M_Path.finish in E. destruct (copy_out (S (length (sw b ++ pad))) (sw b ++ pad) len 0 (sw R) 0) as [[r1 x2]| |] eqn:Ec; try discriminate E.
  pose proof (wcopy_sim b len Hl Hlen _ 0%nat R v 0%nat r1 x2 eq_refl Ec LL) as Wc. rewrite Nat.add_0_r in Wc. rewrite LL. rewrite Wc. cbn [bind] in E |- *.
  assert (Hx2 : (0 < x2)%nat /\ length r1 = length R).
  { cbn [copy_out] in Ec. rewrite sw_len in Ec. destruct (Nat.ltb_spec 0 (length R)); [|lia]. destruct (Nat.ltb_spec 0 len); [|lia]. cbn [andb] in Ec.
    destruct (skip_slashes _ _ _) as [x'| |]; try discriminate Ec. cbn [bind] in Ec. destruct (rd _ x') as [c| |]; try discriminate Ec. cbn [bind] in Ec.
    unfold wr in Ec. rewrite sw_len in Ec. destruct (Nat.ltb_spec 0 (length R)); [|lia]. cbn [bind] in Ec. apply copy_out_mono in Ec. rewrite upd_length, sw_len in Ec. lia. }
  destruct Hx2 as [Hx2 Lr1].
  destruct (Nat.ltb_spec 0 x2) as [_|X]; [|lia]. destruct (Nat.ltb_spec 0 (sp + x2)) as [_|X]; [|lia]. rewrite !andb_true_r in *.
  assert (S47 : forall z, (swap z =? 92) = (z =? 47)) by (intro z; rewrite <- swap_47, swap_swap; reflexivity).
  change slash with 47 in *. change bsl with 92 in *.
  assert (T : exists r2 x3, (if trailing then let* c := rd r1 (x2 - 1) in if negb (c =? 47) && (x2 <? length r1)%nat then let* r := wr r1 x2 47 in Ok (r, S x2) else Ok (r1, x2) else Ok (r1, x2)) = Ok (r2, x3) /\
    (0 < x3)%nat /\ length r2 = length R /\
    (if trailing then let* c := rd (v ++ sw r1) (sp + x2 - 1) in if negb (c =? 92) && (sp + x2 <? length (v ++ sw r1))%nat then let* r := wr (v ++ sw r1) (sp + x2) 92 in Ok (r, S (sp + x2)) else Ok (v ++ sw r1, sp + x2)%nat else Ok (v ++ sw r1, sp + x2)%nat)
    = Ok (v ++ sw r2, sp + x3)%nat).
  { destruct trailing; [|exists r1, x2; auto].
    destruct (rd r1 (x2 - 1)) as [c| |] eqn:Er; try (cbn in E; discriminate E).
    replace (sp + x2 - 1)%nat with (sp + (x2 - 1))%nat by lia.
    rewrite (rd_sim v (sw r1) (x2 - 1) c eq_refl) by (rewrite sw_sw; exact Er). cbn [bind]. rewrite S47, app_length, sw_len.
    replace (sp + x2 <? sp + length r1)%nat with (x2 <? length r1)%nat by (destruct (Nat.ltb_spec x2 (length r1)), (Nat.ltb_spec (sp + x2) (sp + length r1)); lia).
    destruct (negb (c =? 47) && (x2 <? length r1)%nat) eqn:Cc; [|exists r1, x2; auto].
    apply andb_true_iff in Cc. destruct Cc as [_ Cc]. apply Nat.ltb_lt in Cc.
    rewrite wr_in by lia. cbn [bind]. exists (upd r1 x2 47), (S x2). rewrite upd_length. split; [reflexivity|]. split; [lia|]. split; [exact Lr1|].
    rewrite wr_in by (rewrite app_length, sw_len; lia). cbn [bind]. rewrite upd_app_r by lia. replace (sp + x2 - sp)%nat with x2 by lia.
    rewrite <- Nat.add_succ_r. do 3 f_equal. pose proof (upd_sim r1 x2 47 ltac:(lia)) as U. rewrite upd_app_l in U by (rewrite sw_len; lia). apply app_inv_tail in U. exact U. }
  destruct T as (r2 & x3 & T1 & Hx3 & Lr2 & T2). rewrite T1 in E.
  match goal with |- context [bind (if trailing then ?a else ?b) _] => replace (if trailing then a else b) with (Ok (v ++ sw r2, (sp + x3)%nat)) by (symmetry; exact T2) end.
  cbn [bind] in E |- *. clear T1 T2.
  destruct (Nat.ltb_spec 0 x3) as [_|X]; [|lia]. destruct (Nat.ltb_spec 0 (sp + x3)) as [_|X]; [|lia]. rewrite !andb_true_r in *.
  assert (T : exists x4, (if negb trailing then let* c := rd r2 (x3 - 1) in Ok (if c =? 47 then (x3 - 1)%nat else x3) else Ok x3) = Ok x4 /\
    (if negb trailing then let* c := rd (v ++ sw r2) (sp + x3 - 1) in Ok (if c =? 92 then (sp + x3 - 1)%nat else (sp + x3)%nat) else Ok (sp + x3)%nat) = Ok (sp + x4)%nat).
  { destruct trailing; [exists x3; auto|]. cbn [negb] in *.
    destruct (rd r2 (x3 - 1)) as [c| |] eqn:Er; try (cbn in E; discriminate E). replace (sp + x3 - 1)%nat with (sp + (x3 - 1))%nat by lia.
    rewrite (rd_sim v (sw r2) (x3 - 1) c eq_refl) by (rewrite sw_sw; exact Er). cbn [bind]. rewrite S47. destruct (c =? 47); eexists; split; reflexivity. }
  destruct T as (x4 & T1 & T2). rewrite T1 in E.
  match goal with |- context [bind (if negb trailing then ?a else ?b) _] => replace (if negb trailing then a else b) with (Ok (sp + x4)%nat) by (symmetry; exact T2) end.
  cbn [bind] in E |- *.
  rewrite app_length, sw_len. replace (sp + length r2 <=? sp + x4)%nat with (length r2 <=? x4)%nat by (destruct (Nat.leb_spec (length r2) x4), (Nat.leb_spec (sp + length r2) (sp + x4)); lia).
  destruct (Nat.leb_spec (length r2) x4) as [X|X]; [discriminate E|].
  rewrite wr_in in E by lia. rewrite wr_in by (rewrite app_length, sw_len; lia). cbn [bind] in E |- *. rewrite upd_app_r by lia.
  replace (sp + x4 - sp)%nat with x4 by lia.
  assert (U : upd (sw r2) x4 0 = sw (upd r2 x4 0)).
  { pose proof (upd_sim r2 x4 0 ltac:(lia)) as U. rewrite upd_app_l in U by (rewrite sw_len; lia). apply app_inv_tail in U. exact U. }
  rewrite U. destruct (sane x4 (upd r2 x4 0) 0) as [o| |] eqn:Sn; try discriminate E. cbn [bind] in E. injection E as <- ->.
  rewrite (wsane_skip (sw (upd r2 x4 0)) Hv x4 sp 0 ltac:(lia)). 
  pose proof (wsane_sim (sw (upd r2 x4 0)) x4 0%nat true) as Ws. rewrite sw_sw, Nat.add_0_r in Ws. rewrite (Ws Sn). reflexivity.
Qed.
End Behind.

(** ** Splitting and rendering *)
Lemma split_sw s : split (sw s) = map sw (wsplit s).
Proof.
  induction s as [|c s IH]; [reflexivity|]. cbn [sw map split wsplit]. fold (sw s). rewrite swap_47, IH.
  destruct (c =? 92); [reflexivity|]. destruct (wsplit s); reflexivity.
Qed.

Lemma render_sw st : render (map sw st) = sw (wrender st).
Proof.
  induction st as [|c st IH]; [reflexivity|]. cbn [map render wrender flat_map]. change (flat_map (fun c => 47 :: c) (map sw st)) with (render (map sw st)).
  rewrite IH. change (flat_map (fun c => 92 :: c) st) with (wrender st). cbn [app]. unfold sw. cbn [map]. rewrite map_app. reflexivity.
Qed.

Lemma sw_dots c : (sw c = [] <-> c = []) /\ (sw c = [46] <-> c = [46]) /\ (sw c = [46; 46] <-> c = [46; 46]).
Proof.
  repeat split; intro E; try (subst c; reflexivity); apply sw_inj; rewrite E; reflexivity.
Qed.

Lemma resolve_sw cs : forall st, resolve (map sw st) (map sw cs) = map sw (resolve st cs).
Proof.
  induction cs as [|c cs IH]; intro st; [reflexivity|]. cbn [map resolve]. destruct (sw_dots c) as (A & B & C).
  destruct (list_eq_dec N.eq_dec c []) as [->|N1]; [apply IH|]. destruct (list_eq_dec N.eq_dec (sw c) []) as [E|_]; [apply A in E; contradiction|].
  destruct (list_eq_dec N.eq_dec c [46]) as [->|N2]; [apply IH|]. destruct (list_eq_dec N.eq_dec (sw c) [46]) as [E|_]; [apply B in E; contradiction|].
  destruct (list_eq_dec N.eq_dec c [46; 46]) as [->|N3].
  - cbn. rewrite <- IH. f_equal. clear. induction st as [|x st IH]; [reflexivity|]. cbn [map removelast]. destruct st; [reflexivity|]. cbn [map] in *. rewrite IH. reflexivity.
  - destruct (list_eq_dec N.eq_dec (sw c) [46; 46]) as [E|_]; [apply C in E; contradiction|]. rewrite <- IH. f_equal. rewrite map_app. reflexivity.
Qed.

Lemma proper_sw c : proper (sw c) <-> proper c.
Proof. unfold proper. destruct (sw_dots c) as (_ & B & C). rewrite B, C. reflexivity. Qed.

Lemma sw_nz s : nz s -> nz (sw s).
Proof.
  intro Z. apply Forall_map. eapply Forall_impl; [|exact Z]. cbv beta. intros c Hc. unfold swap.
  destruct (c =? 47); [discriminate|]. destruct (c =? 92); [discriminate|exact Hc].
Qed.

(** ** Volumes *)
Definition solid (v : bytes) : Prop := forall i, (i < length v)%nat -> nth i v 0 = 92 -> (S i < length v)%nat /\ nth (S i) v 0 <> 46.

Lemma solid_tail c v : solid (c :: v) -> solid v.
Proof. intros H i Hi E. destruct (H (S i) ltac:(cbn; lia) E) as [A B]. cbn in A. split; [lia|exact B]. Qed.

Lemma wremove_keep c s : c <> 92 \/ hd 0 s <> 46 -> wremove_dots (c :: s) = c :: wremove_dots s.
Proof.
  intro H. destruct s as [|a t]; [reflexivity|]. cbn [hd] in H.
  change (wremove_dots (c :: a :: t)) with (match t with [] => if (c =? 92) && (a =? 46) then [c] else c :: wremove_dots (a :: t)
    | b :: _ => if (c =? 92) && (a =? 46) && (b =? 92) then wremove_dots t else c :: wremove_dots (a :: t) end).
  replace ((c =? 92) && (a =? 46)) with false by (destruct (N.eqb_spec c 92), (N.eqb_spec a 46); try reflexivity; tauto).
  cbn [andb]. destruct t; reflexivity.
Qed.

Lemma remove_behind v : solid v -> forall p, rooted p -> wremove_dots (v ++ p) = v ++ wremove_dots p.
Proof.
  induction v as [|c v IH]; intros S p P; [reflexivity|]. specialize (IH (solid_tail _ _ S) p P). cbn [app].
  rewrite wremove_keep, IH; [reflexivity|]. destruct (N.eq_dec c 92) as [->|Hc]; [right|left; exact Hc].
  destruct (S 0%nat ltac:(cbn; lia) eq_refl) as [A B]. destruct v as [|a v]; [cbn in A; lia|exact B].
Qed.

Lemma close_behind v : solid v -> v <> [] -> forall s, rooted s -> (length v + length s < LIM)%nat -> forall f,
  wclose_dotdot s = Some f -> wclose_dotdot (v ++ s) = Some (v ++ f).
Proof.
  intros S Hv s P L f E. unfold wclose_dotdot in *. change bsl with 92 in *. change dot with 46 in *. rewrite app_length in *.
  destruct (Nat.leb_spec LIM (length s)) as [X|_]; [lia|]. destruct (Nat.leb_spec LIM (length v + length s)) as [X|_]; [lia|].
  assert (Lst : nth (length v - 1) v 0 <> 92).
  { intro X. destruct (S (length v - 1)%nat) as [A _]; [destruct v; [congruence|cbn; lia]|exact X|]. destruct v; [congruence|cbn in A; lia]. }
  destruct (Nat.leb_spec 3 (length s)) as [H3|H3].
  - destruct (Nat.leb_spec 3 (length v + length s)); [|lia].
    replace (length v + length s - 3)%nat with (length v + (length s - 3))%nat by lia.
    replace (length v + length s - 2)%nat with (length v + (length s - 2))%nat by lia.
    replace (length v + length s - 1)%nat with (length v + (length s - 1))%nat by lia. rewrite !nth_behind.
    cbn [andb] in *. destruct ((nth (length s - 3) s 0 =? 92) && (nth (length s - 2) s 0 =? 46) && (nth (length s - 1) s 0 =? 46)); injection E as <-; rewrite ?app_assoc; reflexivity.
  - cbn [andb] in E. injection E as <-.
    match goal with |- (if ?c then _ else _) = _ => destruct c eqn:C end; [exfalso|reflexivity].
    apply andb_true_iff in C. destruct C as [C C1]. apply andb_true_iff in C. destruct C as [C C2]. apply andb_true_iff in C. destruct C as [C3 C4].
    apply Nat.leb_le in C3. apply N.eqb_eq in C1, C2, C4.
    destruct P as [->|[r ->]].
    + cbn [length] in *. rewrite app_nil_r in *. rewrite Nat.add_0_r in *. destruct (S (length v - 3)%nat ltac:(lia) C4) as [_ B]. apply B.
      replace (Datatypes.S (length v - 3)) with (length v - 2)%nat by lia. exact C2.
    + destruct r as [|x [|]]; cbn [length] in *; [| |lia].
      * replace (length v + 1 - 1)%nat with (length v + 0)%nat in C1 by lia. rewrite nth_behind in C1. discriminate.
      * replace (length v + 2 - 3)%nat with (length v - 1)%nat in C4 by lia. rewrite app_nth1 in C4 by (destruct v; [congruence|cbn; lia]). contradiction.
Qed.

Lemma to_bs_at f : forall n x k, (forall i, (x <= i < x + k)%nat -> nth i f 0 <> 92) -> (k <= n)%nat ->
  (k = n \/ nth (x + k) f 0 = 92) -> to_bs n f x = (x + k)%nat.
Proof.
  induction n as [|n IH]; intros x k H Hk E; [cbn; lia|]. cbn [to_bs]. change bsl with 92.
  destruct k as [|k].
  - rewrite Nat.add_0_r in *. destruct E as [E|E]; [lia|]. rewrite E. cbn. reflexivity.
  - destruct (N.eqb_spec (nth x f 0) 92) as [X|_]; [exfalso; apply (H x); [lia|exact X]|].
    rewrite (IH (S x) k); [lia| |lia|].
    + intros i Hi. apply H. lia.
    + destruct E as [E|E]; [left; lia|right]. rewrite <- E. f_equal. lia.
Qed.

Lemma nth_notin (h : bytes) i : ~ In 92 h -> (i < length h)%nat -> nth i h 0 <> 92.
Proof. intros H L E. apply H. rewrite <- E. apply nth_In. exact L. Qed.

Lemma solid_app u h : solid u \/ (exists u', u = u' ++ [92] /\ solid u') -> h <> [] -> ~ In 92 h -> hd 0 h <> 46 -> solid (u ++ h).
Proof.
  intros Su Hh H9 H4 i Hi E. rewrite app_length in *. destruct (Nat.lt_ge_cases i (length u)) as [L|L].
  - rewrite app_nth1 in E by exact L. destruct Su as [Su|(u' & -> & Su)].
    + destruct (Su i L E) as [A B]. split; [lia|]. rewrite app_nth1 by exact A. exact B.
    + rewrite app_length in *. cbn [length] in *. destruct (Nat.eq_dec i (length u')) as [->|Hne].
      * split; [destruct h; [congruence|cbn; lia]|]. rewrite app_nth2 by (rewrite app_length; cbn; lia). rewrite app_length. cbn [length].
        replace (S (length u') - (length u' + 1))%nat with 0%nat by lia. destruct h; [congruence|exact H4].
      * rewrite app_nth1 in E by lia. destruct (Su i ltac:(lia) E) as [A B]. split; [lia|]. rewrite app_nth1 by (rewrite app_length; cbn; lia). rewrite app_nth1 by lia. exact B.
  - exfalso. rewrite app_nth2 in E by lia. apply (nth_notin h (i - length u)); [exact H9|lia|exact E].
Qed.

Lemma volume_facts v : volume v -> solid v /\ v <> [] /\ begins_with p_uni v /\
  forall p, rooted p -> StartPath (WGetPlatformFilenameInfo (v ++ p)) = length v /\ (0 < StartVolume (WGetPlatformFilenameInfo (v ++ p)))%nat.
Proof.
  intros V.
  assert (Un : solid [92; 92; 63]).
  { intros i Hi E. cbn in Hi. destruct i as [|[|[|i]]]; cbn in E |- *; try discriminate; split; try lia; discriminate. }
  assert (PI : forall w h p k, v = w ++ h -> length w = k -> k <> 0%nat -> ~ In 92 h -> rooted p ->
      (if starts true s_unc (v ++ p) then 8%nat else if starts false s_uni (v ++ p) then 4%nat else 0%nat) = k ->
      StartPath (WGetPlatformFilenameInfo (v ++ p)) = length v /\ (0 < StartVolume (WGetPlatformFilenameInfo (v ++ p)))%nat).
  { intros w h p k Ev Lw Hk H9 P Ek. unfold WGetPlatformFilenameInfo. cbv zeta. cbn [StartPath StartVolume]. rewrite Ek.
    destruct (Nat.eqb_spec k 0); [lia|]. split; [|lia]. rewrite Ev, !app_length, Lw.
    rewrite (to_bs_at _ _ _ (length h)); [reflexivity| |lia|].
    - intros i Hi. rewrite app_nth1 by (rewrite app_length; lia). rewrite app_nth2 by lia. apply nth_notin; [exact H9|lia].
    - destruct P as [->|[r ->]]; [left; cbn; lia|right]. rewrite app_nth2 by (rewrite app_length; lia). rewrite app_length.
      replace (k + length h - (length w + length h))%nat with 0%nat by lia. reflexivity. }
  destruct V as [c L|u h U Hh H9 H4].
  - split; [apply solid_app; [right; exists [92; 92; 63]; split; [reflexivity|exact Un]|discriminate| |]|].
    + intros [X|[X|[]]]; [|discriminate X]. subst c. destruct L; lia.
    + cbn. intro X. subst c. destruct L; lia.
    + split; [discriminate|]. split; [exists [c; 58]; reflexivity|]. intros p P. apply (PI p_uni [c; 58] p 4%nat eq_refl eq_refl ltac:(discriminate)).
      * intros [X|[X|[]]]; [|discriminate X]. subst c. destruct L; lia.
      * exact P.
      * replace (starts true s_unc ((p_uni ++ [c; 58]) ++ p)) with false; [reflexivity|].
        cbn. rewrite andb_false_r. reflexivity.
  - destruct (unc_starts u (h ++ []) U) as (Lu & _ & _ & _ & _). destruct (unc_shape u U) as (a & b & c & Eu & A & B & C).
    split; [apply solid_app; [right|exact Hh|exact H9|exact H4]|].
    + exists [92; 92; 63; 92; a; b; c]. split; [rewrite Eu; reflexivity|].
      assert (Na : a <> 92 /\ a <> 46) by (split; intro X; subst a; discriminate A).
      assert (Nb : b <> 92 /\ b <> 46) by (split; intro X; subst b; discriminate B).
      assert (Nc : c <> 92 /\ c <> 46) by (split; intro X; subst c; discriminate C).
      intros i Hi E. cbn in Hi. destruct i as [|[|[|[|[|[|[|i]]]]]]]; cbn in E |- *; try discriminate; try lia; (split; [lia|]); try discriminate; tauto.
    + split; [intro X; apply app_eq_nil in X; tauto|]. split; [rewrite Eu; eexists; reflexivity|].
      intros p P. apply (PI u h p 8%nat eq_refl Lu ltac:(discriminate) H9 P). rewrite <- app_assoc. destruct (unc_starts u (h ++ p) U) as (_ & _ & _ & _ & ->). reflexivity.
Qed.

(** ** The name after its dots are gone *)
Lemma wcleaned n : (length n < LIM)%nat -> proper (hd [] (wsplit n)) ->
  exists f, wclose_dotdot (wremove_dots n) = Some f /\ hd 0 f = hd 0 n /\ (length f <= S (length n))%nat /\
    proper (hd [] (split (sw f))) /\ ~ In [46] (tl (split (sw f))) /\ last (split (sw f)) [] <> [46; 46] /\
    (forall st, resolve st (split (sw f)) = resolve st (split (sw n))) /\ incl f (92 :: n) /\ (n = [] -> f = []).
Proof.
  intros L P. rewrite wclose_sim, (wremove_sim (length n) n) by lia. set (m := sw n).
  assert (Lm : length m = length n) by apply sw_len.
  assert (Pm : proper (hd [] (split m))).
  { unfold m. rewrite split_sw. pose proof (wsplit_ne n). destruct (wsplit n); [congruence|]. cbn [map hd] in *. apply proper_sw. exact P. }
  pose proof (remove_dots_split (length m) m ltac:(lia)) as Sp. pose proof (remove_dots_len (length m) m ltac:(lia)) as Ln.
  pose proof (remove_dots_hd m) as Hh.
  assert (In1 : incl (remove_dots m) m).
  { clearbody m. clear. remember (length m) as k eqn:E. assert (K : (length m <= k)%nat) by lia. clear E. revert m K. induction k as [|k IH]; intros m K; [destruct m; [intros x Hx; exact Hx|cbn in K; lia]|].
    destruct m as [|c [|a t]]; [intros x Hx; exact Hx|intros x Hx; exact Hx|]. rewrite remove_dots_eq. cbn [length] in K.
    destruct t as [|b t].
    - destruct ((c =? 47) && (a =? 46)); intros x Hx; [destruct Hx as [->|[]]; left; reflexivity|exact Hx].
    - cbn [length] in K. pose proof (IH (b :: t) ltac:(cbn; lia)) as I1. pose proof (IH (a :: b :: t) ltac:(cbn; lia)) as I2.
      destruct ((c =? 47) && (a =? 46) && (b =? 47)); intros x Hx; [apply I1 in Hx; right; right; exact Hx|].
      destruct Hx as [->|Hx]; [left; reflexivity|right; apply I2; exact Hx]. }
  assert (Nil : n = [] -> remove_dots m = []) by (intros ->; reflexivity).
  set (s := remove_dots m) in *. clearbody s.
  destruct (close_ok s ltac:(lia)) as (f & Ef & Hf & Lf); [rewrite Sp; exact Pm|]. rewrite Ef. cbn [option_map]. exists (sw f). rewrite sw_sw, sw_len.
  split; [reflexivity|].
  assert (R : forall st, resolve st (split s) = resolve st (split m)).
  { intro st. rewrite Sp. pose proof (split_ne m). destruct (split m) as [|h t]; [congruence|]. cbn [hd tl].
    change (h :: dropdots t) with ([h] ++ dropdots t). change (h :: t) with ([h] ++ t). rewrite !resolve_app, resolve_dropdots. reflexivity. }
  assert (Hd : forall x y, hd 0 x = hd 0 (sw y) -> hd 0 (sw x) = hd 0 y).
  { intros x y E. destruct x as [|x0 x], y as [|y0 y]; cbn in *; [reflexivity| | |].
    - change 0 with (swap 0) in E. apply swap_inj in E. exact E.
    - subst x0. reflexivity.
    - subst x0. apply swap_swap. }
  assert (In2 : forall c, In c (sw s) -> In c n).
  { intros c Hc. apply in_map_iff in Hc. destruct Hc as (z & <- & Hz). apply In1 in Hz. unfold m in Hz. apply in_map_iff in Hz.
    destruct Hz as (y & <- & Hy). rewrite swap_swap. exact Hy. }
  destruct Hf as [-> | ->].
  - split; [apply Hd; exact Hh|]. split; [lia|]. rewrite Sp. cbn [hd tl]. split; [exact Pm|]. split; [apply dropdots_no|]. split; [rewrite <- Sp; exact Lf|].
    split; [intro st; rewrite <- Sp; apply R|]. split; [intros c Hc; right; apply In2; exact Hc|]. intro E. rewrite (Nil E). reflexivity.
  - assert (Sn : s <> []).
    { intros ->. unfold close_dotdot in Ef. cbn in Ef. discriminate. }
    split; [apply Hd; fold m; rewrite <- Hh; destruct s; [congruence|reflexivity]|]. split; [rewrite app_length; cbn [length]; lia|].
    assert (Es : split (s ++ [47]) = (hd [] (split m) :: dropdots (tl (split m))) ++ [[]]).
    { change (s ++ [47]) with (s ++ 47 :: []). rewrite split_app, Sp. reflexivity. }
    split; [rewrite Es; exact Pm|]. split; [rewrite Es; cbn [app tl]; intro X; apply in_app_or in X; destruct X as [X|[X|[]]]; [exact (dropdots_no _ X)|discriminate]|].
    split; [exact Lf|]. split; [intro st; rewrite resolve_slash; apply R|].
    split; [intros c Hc; rewrite sw_app in Hc; apply in_app_or in Hc; destruct Hc as [Hc|[<-|[]]]; [right; apply In2; exact Hc|left; reflexivity]|].
    intro E. exfalso. apply Sn. apply Nil. exact E.
Qed.

(** ** Joining *)
Definition wending (trailing : bool) : bytes := if trailing then [92] else [].

Lemma sw_ending trailing : sw (ending trailing) = wending trailing.
Proof. destruct trailing; reflexivity. Qed.

Lemma wjoin_ok v d q f n f3 sp3 result trailing :
  volume v -> rooted d -> nz (v ++ d) -> nz n -> Forall proper (wsplit d) ->
  length ((v ++ d) ++ 0 :: q) = S LIM -> last q 0 <> 92 ->
  skipn sp3 f3 = f -> nth sp3 f3 0 = hd 0 f ->
  hd 0 f = hd 0 n -> (length f <= S (length n))%nat -> proper (hd [] (split (sw f))) -> ~ In [46] (tl (split (sw f))) -> last (split (sw f)) [] <> [46; 46] ->
  (forall st, resolve st (split (sw f)) = resolve st (split (sw n))) ->
  (length v + length d + length n + 3 <= LIM)%nat ->
  (length (v ++ wrender (wplace d n) ++ wending trailing) < length result)%nat ->
  exists r, wjoin ((v ++ d) ++ 0 :: q) f3 sp3 result trailing = Ok (r, true) /\
    cstr r = Ok (v ++ wrender (wplace d n) ++ wending trailing) /\ length r = length result.
Proof.
  intros V Rd Nvd Nn Pd Lb Lq Sf Nf F1 F3 F4 F5 Lf F6 Len Cap.
  destruct (volume_facts v V) as (Sv & Hv & _ & Pv). pose proof (proj1 (proj1 (Forall_app _ v d) Nvd)) as Nv. pose proof (proj2 (proj1 (Forall_app _ v d) Nvd)) as Nd.
  assert (Hv1 : (0 < length v)%nat) by (destruct v; [congruence|cbn; lia]).
  assert (Lst : nth (length v - 1) v 0 <> 92).
  { intro X. destruct (Sv (length v - 1)%nat ltac:(lia) X) as [A _]. lia. }
  rewrite app_length in Lb. cbn [length] in Lb. rewrite app_length in Lb.
  unfold wjoin. rewrite cstr_app by exact Nvd. cbn [bind]. rewrite app_length.
  destruct (Nat.ltb_spec 0 (length v + length d)) as [_|X]; [|lia]. rewrite andb_true_l.
  destruct (Nat.leb_spec LIM (length v + length d)) as [X|_]; [lia|]. rewrite andb_false_r.
  (* the directory with its backslash *)
  assert (Step : exists d1 q1, (if negb (nth (length v + length d - 1) (v ++ d) 0 =? bsl) then blit ((v ++ d) ++ 0 :: q) (length v + length d) [bsl; 0] else Ok ((v ++ d) ++ 0 :: q))
      = Ok (v ++ d1 ++ 0 :: q1) /\ (if negb (nth (length v + length d - 1) (v ++ d) 0 =? bsl) then (v ++ d) ++ [bsl] else v ++ d) = v ++ d1 /\
      (exists e, d1 = 92 :: e) /\ (exists e, d1 = e ++ [92]) /\ (d1 = d \/ d1 = d ++ [92]) /\ last q1 0 <> 92 /\ (length d1 + length q1 = length d + length q)%nat).
  { change bsl with 92. destruct (N.eqb_spec (nth (length v + length d - 1) (v ++ d) 0) 92) as [E|E]; cbn [negb].
    - exists d, q. rewrite <- app_assoc. split; [reflexivity|]. split; [reflexivity|].
      destruct Rd as [->|[e ->]]; [exfalso; cbn in E; rewrite Nat.add_0_r, app_nil_r in E; exact (Lst E)|].
      split; [exists e; reflexivity|]. split.
      { exists (removelast (92 :: e)). rewrite (app_removelast_last 0) at 1 by discriminate. f_equal. f_equal. rewrite last_nth.
        set (d := 92 :: e) in *. assert (Ld : (1 <= length d)%nat) by (cbn; lia).
        replace (length v + length d - 1)%nat with (length v + (length d - 1))%nat in E by lia. rewrite nth_behind in E. exact E. }
      split; [left; reflexivity|]. split; [exact Lq|reflexivity].
    - destruct q as [|q0 qs]; [cbn [length] in Lb; lia|]. exists (d ++ [92]), qs. split.
      { rewrite <- (app_length v d), app_length. change (0 :: q0 :: qs) with ([0; q0] ++ qs). rewrite <- (app_length v d). rewrite blit_over by reflexivity. rewrite <- !app_assoc. reflexivity. }
      split; [rewrite <- app_assoc; reflexivity|].
      split; [destruct Rd as [->|[e ->]]; eexists; reflexivity|]. split; [exists d; reflexivity|]. split; [right; reflexivity|].
      split; [|rewrite app_length; cbn [length]; lia].
      destruct qs; [cbn [length] in *; lia|exact Lq]. }
  destruct Step as (d1 & q1 & S1 & S2 & [e1 He1] & [e2 He2] & Hd1 & Lq1 & Ld1).
  match goal with |- context [bind (if negb ?c then ?a else ?b) _] => replace (if negb c then a else b) with (Ok (v ++ d1 ++ 0 :: q1)) by (symmetry; exact S1) end.
  cbn [bind].
  match goal with |- context [WGetPlatformFilenameInfo (if ?c then ?a else ?b)] => replace (if c then a else b) with (v ++ d1) by (symmetry; exact S2) end.
  cbv zeta. destruct (Pv d1) as [-> _]; [right; exists e1; exact He1|].
  rewrite Sf, Nf.
  assert (D0 : (1 <= length d1)%nat) by (rewrite He1; cbn [length]; lia).
  assert (D1 : (1 <= length d1 <= S (length d))%nat) by (split; [exact D0|]; destruct Hd1 as [-> | ->]; [lia|rewrite app_length; cbn [length]; lia]).
  set (b1 := d1 ++ 0 :: q1) in *.
  assert (Lb1 : (length b1 = S LIM - length v)%nat) by (unfold b1; rewrite app_length; cbn [length]; lia).
  assert (Zb1 : nth (length b1 - 1) b1 0 <> 92).
  { rewrite <- last_nth. unfold b1. clear - Lq1. destruct q1 as [|x q1]; [rewrite last_last; discriminate|].
    replace (last (d1 ++ 0 :: x :: q1) 0) with (last (x :: q1) 0); [exact Lq1|]. symmetry. induction d1 as [|c d1 IH]; [reflexivity|].
    cbn [app]. rewrite <- IH. destruct (d1 ++ 0 :: x :: q1) eqn:E; [destruct d1; discriminate|reflexivity]. }
  assert (Cd : comps (sw d1) = comps (sw d)).
  { destruct Hd1 as [-> | ->]; [reflexivity|]. rewrite sw_app. cbn. apply comps_slash. }
  assert (Pds : Forall proper (split (sw d))).
  { rewrite split_sw. apply Forall_map. eapply Forall_impl; [|exact Pd]. intros c Hc. apply proper_sw. exact Hc. }
  assert (Pl : map sw (wplace d n) = resolve (if hd 0 n =? 92 then [] else comps (sw d)) (split (sw n))).
  { unfold wplace. rewrite split_sw. destruct (hd 0 n =? 92).
    - rewrite <- resolve_sw. reflexivity.
    - rewrite <- !resolve_sw. f_equal. rewrite <- split_sw. cbn [map]. rewrite resolve_all_proper by exact Pds. reflexivity. }
  assert (TD : Forall tidy (comps (sw d))).
  { unfold comps. pose proof (split_noslash (sw d)) as NS. apply Forall_forall. intros x Hx. apply filter_In in Hx. destruct Hx as [Hx1 Hx2].
    rewrite Forall_forall in NS, Pds. split; [exact (Pds _ Hx1)|]. split; [intros ->; discriminate|exact (NS _ Hx1)]. }
  assert (ND : Forall nz (comps (sw d))).
  { unfold comps. pose proof (split_nz _ (sw_nz _ Nd)) as Z. apply Forall_forall. intros x Hx. apply filter_In in Hx. rewrite Forall_forall in Z. exact (Z _ (proj1 Hx)). }
  set (pad := repeat 0 (length v)).
  assert (LL : length (v ++ b1) = length (sw b1 ++ pad)) by (unfold pad; rewrite !app_length, sw_len, repeat_length; lia).
  assert (LS : length (sw b1 ++ pad) = S LIM) by (rewrite <- LL, app_length; lia).
  assert (Lv : (length v < length result)%nat) by (rewrite app_length in Cap; lia).
  set (R0 := firstn (length v) result). set (R := skipn (length v) result).
  assert (ER : result = R0 ++ R) by (symmetry; apply firstn_skipn).
  assert (LR0 : length R0 = length v) by (unfold R0; rewrite firstn_length; lia).
  assert (LR : (length R = length result - length v)%nat) by (unfold R; apply skipn_length).
  assert (Fin : forall k st0, (1 <= k <= S (length d))%nat -> (k <= length d1)%nat -> ends (firstn k (sw b1 ++ pad)) -> comps (firstn k (sw b1 ++ pad)) = st0 ->
    map sw (wplace d n) = resolve st0 (split (sw n)) -> Forall tidy st0 -> Forall nz st0 ->
    exists r, (let* p := wparse (length v) f (v ++ b1) (length v + k) in
      match p with None => Ok (result, false) | Some (b5, len5) => wfinish (length v) b5 len5 result trailing end) = Ok (r, true) /\
    cstr r = Ok (v ++ wrender (wplace d n) ++ wending trailing) /\ length r = length result).
  { intros k st0 Hk Hkd E4 C4 P4 T4 N4.
    assert (B0 : nth 0 (sw b1 ++ pad) 0 = 47) by (unfold b1; rewrite He1; reflexivity).
    assert (BL : nth LIM (sw b1 ++ pad) 0 <> 47).
    { rewrite app_nth2 by (rewrite sw_len; lia). unfold pad. rewrite nth_repeat. discriminate. }
    destruct (parse_ok (length (sw f)) (sw f) ltac:(lia) (sw b1 ++ pad) k (firstn k (sw b1 ++ pad)) [] LS ltac:(rewrite sw_len; lia)
      ltac:(rewrite app_nil_r; reflexivity) E4 ltac:(intros []) F4 F5 Lf ltac:(lia) ltac:(intros _; exact B0) BL)
      as (B5 & len5 & Ep & L5 & Hl5 & C5 & N5 & H50 & Z5).
    cbn [app] in C5. rewrite F6, C4, <- P4 in C5.
    destruct (wparse_sim v pad (length f) f ltac:(lia) b1 k B5 len5 ltac:(lia) ltac:(lia) Ep) as (b5 & -> & Lb5 & Wp & K5 & Hl6).
    match goal with |- context [bind ?x _] => replace x with (Ok (Some (v ++ b5, (length v + len5)%nat))) by (symmetry; exact Wp) end. cbn [bind].
    assert (Z6 : nth (length b5 - 1) b5 0 <> 92) by (rewrite Lb5, K5 by lia; exact Zb1).
    assert (T5 : Forall tidy (map sw (wplace d n))) by (rewrite P4; apply resolve_tidy; [exact T4|apply split_noslash]).
    assert (Nw : Forall nz (map sw (wplace d n))) by (rewrite P4; apply resolve_nz; [exact N4|apply split_nz, sw_nz; exact Nn]).
    assert (CapR : (length (render (map sw (wplace d n)) ++ ending trailing) < length (sw R))%nat).
    { rewrite render_sw, sw_len, LR. rewrite !app_length in Cap. rewrite app_length, sw_len. rewrite <- (sw_len (ending trailing)), sw_ending. lia. }
    destruct (finish_ok (sw b5 ++ pad) len5 _ (sw R) trailing L5 Hl5 Z5 N5 H50 C5 T5 CapR) as (qq & Eq & Lqq).
    exists (v ++ sw (render (map sw (wplace d n)) ++ ending trailing ++ 0 :: qq)). split.
    { rewrite ER. apply (wfinish_sim v pad b5 len5 R trailing _ true Z6 ltac:(lia) ltac:(lia) ltac:(lia) Sv).
      - unfold pad. rewrite !app_length, sw_len, repeat_length. lia.
      - exact LR0.
      - exact Eq.
      - reflexivity. }
    split.
    { rewrite !sw_app, render_sw, sw_sw, sw_ending. change (sw (0 :: qq)) with (0 :: sw qq). rewrite !app_assoc. apply cstr_app. rewrite <- app_assoc.
      apply Forall_app. split; [exact Nv|]. apply Forall_app. split.
      - rewrite <- (sw_sw (wrender _)), <- render_sw. apply sw_nz. apply render_nz. exact Nw.
      - destruct trailing; repeat constructor; discriminate. }
    rewrite app_length, sw_len, Lqq, sw_len. lia. }
  assert (FE : forall k, (k <= length d1)%nat -> firstn k (sw b1 ++ pad) = firstn k (sw d1)).
  { intros k Hk. unfold b1. rewrite sw_app, <- app_assoc, firstn_app, sw_len. replace (k - length d1)%nat with 0%nat by lia. cbn [firstn]. apply app_nil_r. }
  change bsl with 92. destruct (N.eqb_spec (hd 0 f) 92) as [E|E].
  - destruct (Nat.leb_spec LIM (length v)) as [X|_]; [lia|]. rewrite Nat.eqb_refl.
    rewrite wr_in by (rewrite app_length; lia). cbn [bind]. rewrite upd_app_r by lia. rewrite Nat.sub_diag.
    replace (upd b1 0 92) with b1 by (unfold b1; rewrite He1; reflexivity).
    rewrite <- Nat.add_1_r. apply (Fin 1%nat []); [lia|lia| | | |constructor|constructor].
    + rewrite FE by lia. rewrite He1. right. exists []. reflexivity.
    + rewrite FE by lia. rewrite He1. reflexivity.
    + rewrite Pl. rewrite <- F1, E. reflexivity.
  - rewrite app_length. destruct (Nat.leb_spec LIM (length v + length d1)) as [X|_]; [lia|]. destruct (Nat.eqb_spec (length v) (length v + length d1)) as [X|_]; [lia|].
    cbn [bind]. apply (Fin (length d1) (comps (sw d))); try lia; try assumption.
    + rewrite FE by lia. rewrite <- (sw_len d1), firstn_all. rewrite He2, sw_app. right. exists (sw e2). reflexivity.
    + rewrite FE by lia. rewrite <- (sw_len d1), firstn_all. exact Cd.
    + rewrite Pl. rewrite <- F1. destruct (N.eqb_spec (hd 0 f) 92); [contradiction|reflexivity].
Qed.
