(** Proofs about the JSON serializer model. *)
From Verif Require Import Base S_Numeral S_Json M_ConvertInt P_ConvertInt M_Json.
Open Scope N_scope.

(** ** Buffers: [mk s0 D tail] is the state [s0] with the buffer holding the text [D] and then [tail]. *)
Definition mk (s0 : ser) (D tail : bytes) : ser := set_bp s0 (Some (D ++ tail)) (length D).
Definition znul (t : bytes) : bytes := match t with [] => [] | _ :: r => 0 :: r end.

Lemma znul_length t : length (znul t) = length t.
Proof. now destruct t. Qed.

Lemma wr_at (D : bytes) x t c : wr (D ++ x :: t) (length D) c = Ok (D ++ c :: t).
Proof.
  rewrite wr_in by (rewrite app_length; cbn; lia). f_equal.
  rewrite upd_app_r by lia. now rewrite Nat.sub_diag.
Qed.

Lemma put_mk s0 D x t c : put c (mk s0 D (x :: t)) = Ok (mk s0 (D ++ [c]) t).
Proof.
  unfold put, mk. cbn [s_buf s_pos set_bp]. rewrite wr_at. cbn [bind].
  unfold set_bp. cbn. rewrite <- app_assoc, app_length. cbn.
  now replace (length D + 1)%nat with (S (length D)) by lia.
Qed.

Lemma nul_mk s0 D t : t <> [] -> nul (mk s0 D t) = Ok (mk s0 D (znul t)).
Proof.
  destruct t as [|x t]; [congruence|intros _]. unfold nul, mk. cbn [s_buf s_pos set_bp]. now rewrite wr_at.
Qed.

Lemma put_list_mk s0 u : forall D t, (length u <= length t)%nat ->
  put_list u (mk s0 D t) = Ok (mk s0 (D ++ u) (skipn (length u) t)).
Proof.
  induction u as [|c u IH]; intros D t H; cbn [put_list].
  - now rewrite app_nil_r.
  - destruct t as [|x t]; cbn [length] in H; [lia|]. rewrite put_mk. cbn [bind].
    rewrite IH by lia. rewrite <- app_assoc. reflexivity.
Qed.

Lemma cpy_mk s0 D t u : (length u < length t)%nat ->
  cpy u (mk s0 D t) = Ok (mk s0 (D ++ u) (znul (skipn (length u) t))).
Proof.
  intros H. unfold cpy, mk. cbn [s_buf s_pos set_bp].
  rewrite blit_in by (rewrite !app_length; cbn; lia). cbn [bind]. f_equal.
  unfold set_bp; cbn. rewrite app_length. cbn.
  assert (E : firstn (length D) (D ++ t) = D).
  { rewrite firstn_app, Nat.sub_diag, firstn_all. cbn. apply app_nil_r. }
  rewrite E. rewrite app_length. cbn [length].
  assert (E2 : skipn (length D + (length u + 1)) (D ++ t) = skipn 1 (skipn (length u) t)).
  { rewrite skipn_app, skipn_all2 by lia. cbn [app]. rewrite skipn_skipn. f_equal. lia. }
  rewrite E2. clear E E2.
  destruct (skipn (length u) t) as [|y r] eqn:Es.
  { apply (f_equal (@length N)) in Es. rewrite skipn_length in Es. cbn in Es. lia. }
  cbn [skipn znul]. now rewrite <- !app_assoc.
Qed.

Lemma mk_md s0 D t m d : set_md (mk s0 D t) m d = mk (set_md s0 m d) D t.
Proof. reflexivity. Qed.

(** ** Escaping *)

Definition escs (esc : bool) (v : bytes) : bytes := flat_map (esc1 esc) v.
Definition calcs (esc : bool) (v : bytes) : nat := fold_right (fun c n => calc1 esc c + n)%nat 0%nat v.

Lemma esc1_calc esc c : (length (esc1 esc c) <= calc1 esc c)%nat.
Proof.
  unfold esc1, calc1. repeat (destruct (_ =? _); cbn [orb]); try destruct esc; cbn; lia.
Qed.

Lemma escs_calc esc v : (length (escs esc v) <= calcs esc v)%nat.
Proof.
  induction v as [|c v IH]; [cbn; lia|].
  change (escs esc (c :: v)) with (esc1 esc c ++ escs esc v).
  change (calcs esc (c :: v)) with (calc1 esc c + calcs esc v)%nat.
  rewrite app_length. pose proof (esc1_calc esc c). lia.
Qed.

Lemma calc_str s0 v add m : mode_at s0 = Ok m ->
  CalculateStrSize s0 v add = Ok ((if is_str m then 0 else 2) + calcs (s_esc s0) v + (if add then length (s_ksp s0) else 0))%nat.
Proof. intros H. unfold CalculateStrSize. rewrite H. reflexivity. Qed.

Lemma append_str_mk s0 D t v m : mode_at s0 = Ok m ->
  ((if is_str m then 0 else 2) + length (escs (s_esc s0) v) < length t)%nat ->
  exists t', InternalAppendStr v (mk s0 D t) =
     Ok (mk s0 (D ++ if is_str m then escs (s_esc s0) v else 34 :: escs (s_esc s0) v ++ [34]) (znul t'))
     /\ t' = skipn (length (if is_str m then escs (s_esc s0) v else 34 :: escs (s_esc s0) v ++ [34])) t /\ t' <> [].
Proof.
  intros Hm Hl. unfold InternalAppendStr. change (mode_at (mk s0 D t)) with (mode_at s0). rewrite Hm. cbn [bind].
  change (s_esc (mk s0 D t)) with (s_esc s0).
  assert (NE : forall (l : bytes) n, (n < length l)%nat -> skipn n l <> []).
  { intros l n H E. apply (f_equal (@length N)) in E. rewrite skipn_length in E. cbn in E. lia. }
  destruct (is_str m); cbn [bind Nat.add] in *.
  - fold (escs (s_esc s0) v). rewrite put_list_mk by lia. cbn [bind].
    eexists. split; [rewrite nul_mk; [reflexivity|]|split; [reflexivity|]]; apply NE; lia.
  - destruct t as [|x t]; cbn [length] in Hl; [lia|]. rewrite put_mk. cbn [bind].
    fold (escs (s_esc s0) v). rewrite put_list_mk by lia. cbn [bind].
    set (u := escs (s_esc s0) v) in *.
    destruct (skipn (length u) t) as [|y r] eqn:Es.
    { exfalso. apply (f_equal (@length N)) in Es. rewrite skipn_length in Es. cbn in Es. lia. }
    rewrite put_mk. cbn [bind].
    assert (Er : r <> []).
    { intros ->. apply (f_equal (@length N)) in Es. rewrite skipn_length in Es. cbn in Es. lia. }
    rewrite nul_mk by exact Er.
    exists r. split; [|split; [|exact Er]].
    + do 2 f_equal. rewrite <- !app_assoc. reflexivity.
    + cbn [length skipn]. rewrite app_length. cbn [length].
      rewrite (Nat.add_comm (length u) 1), <- skipn_skipn, Es. reflexivity.
Qed.

Lemma append_raw_mk s0 D t (u : bytes) : (length D + length t = S (s_size s0))%nat -> (length u < length t)%nat ->
  Append (Some u) (mk s0 D t) = Ok (true, mk s0 (D ++ u) (znul (skipn (length u) t))).
Proof.
  intros H1 H2. unfold Append. change (s_size (mk s0 D t)) with (s_size s0).
  change (s_pos (mk s0 D t)) with (length D).
  destruct (Nat.ltb_spec (s_size s0) (length D + length u)); [lia|].
  rewrite put_list_mk by lia. cbn [bind]. rewrite nul_mk; [reflexivity|].
  intros E. apply (f_equal (@length N)) in E. rewrite skipn_length in E. cbn in E. lia.
Qed.

(** ** Modes and scopes *)

Definition fmode (f : frame) : mode :=
  match f with
  | FRoot None => RootFirst | FRoot (Some _) => RootNext
  | FObj [] => ObjectFirst | FObj _ => ObjectNext
  | FArr [] => ArrayFirst | FArr _ => ArrayNext
  | FStr _ => StrMode
  end.
Definition nmode (f : frame) : mode :=
  match f with FRoot _ => RootNext | FObj _ => ObjectNext | FArr _ => ArrayNext | FStr _ => StrMode end.

Inductive wfst : stack -> Prop :=
| wf_root v : wfst [(None, FRoot v)]
| wf_push k f st : wfst st -> placed k JNull st <> None -> frame_value f <> None -> wfst ((k, f) :: st).

Definition below (st : stack) : list mode := rev (map (fun e => nmode (snd e)) st).
Definition smodes (st : stack) : list mode :=
  match st with [] => [] | (_, f) :: r => below r ++ [fmode f] end.

Lemma below_length st : length (below st) = length st.
Proof. unfold below. now rewrite rev_length, map_length. Qed.

(** The state represents the open scopes [st]. *)
Definition abs (s0 : ser) (st : stack) : Prop :=
  wfst st /\ length st = S (s_depth s0) /\ (exists junk, s_modes s0 = smodes st ++ junk).

Lemma abs_mode s0 k f r : abs s0 ((k, f) :: r) -> mode_at s0 = Ok (fmode f).
Proof.
  intros (_ & Hl & junk & Hm). cbn [smodes length] in *. unfold mode_at, rd. rewrite Hm.
  rewrite <- app_assoc, nth_error_app2; rewrite below_length; [|lia].
  replace (s_depth s0 - length r)%nat with 0%nat by lia. reflexivity.
Qed.

(** Prefix text in front of a value or scope with key [k]. *)
Definition sepb (f : frame) : bool := match f with FObj (_ :: _) | FArr (_ :: _) => true | _ => false end.
Definition pfx (s0 : ser) (f : frame) (k : option bytes) : bytes :=
  (if sepb f then s_vsp s0 else [])
  ++ match k with Some key => 34 :: escs (s_esc s0) key ++ 34 :: s_ksp s0 | None => [] end.
(** The room the code asks for. *)
Definition pneed (s0 : ser) (f : frame) (k : option bytes) : nat :=
  ((if sepb f then length (s_vsp s0) else 0)
   + match k with Some key => 2 + calcs (s_esc s0) key + length (s_ksp s0) | None => 0 end)%nat.

Lemma pfx_need s0 f k : (length (pfx s0 f k) <= pneed s0 f k)%nat.
Proof.
  unfold pfx, pneed. rewrite app_length. destruct k as [key|]; cbn [length].
  - rewrite app_length. cbn [length]. pose proof (escs_calc (s_esc s0) key).
    destruct (sepb f); cbn [length]; lia.
  - destruct (sepb f); cbn [length]; lia.
Qed.

Definition okplace (k : option bytes) (f : frame) : bool :=
  match place k JNull f with Some _ => true | None => false end.

Lemma place_ok k v f : okplace k f = true <-> exists f', place k v f = Some f'.
Proof.
  unfold okplace. destruct f as [[|]|fs|vs|s], k; cbn; split; intros H; try discriminate; eauto; now destruct H.
Qed.

(** The state after a successful prefix: the top scope is now in its "next" mode. *)
Definition bump (s0 : ser) (f : frame) : ser :=
  match fmode f with
  | ObjectNext | ArrayNext => s0
  | _ => set_md s0 (upd (s_modes s0) (s_depth s0) (nmode f)) (s_depth s0)
  end.

Lemma skipn_ne (l : bytes) n : (n < length l)%nat -> skipn n l <> [].
Proof. intros H E. apply (f_equal (@length N)) in E. rewrite skipn_length in E. cbn in E. lia. Qed.


Lemma prefix_refused s0 k0 f r D t key extra :
  abs s0 ((k0, f) :: r) -> (length D + length t = S (s_size s0))%nat ->
  okplace key f = false \/ (s_size s0 < length D + pneed s0 f key + extra)%nat ->
  InternalAppendNextPrefix key extra (mk s0 D t) = Ok (false, mk s0 D t).
Proof.
  intros HA HL HR. unfold InternalAppendNextPrefix.
  change (mode_at (mk s0 D t)) with (mode_at s0). rewrite (abs_mode _ _ _ _ HA). cbn [bind].
  change (s_vsp (mk s0 D t)) with (s_vsp s0). change (s_size (mk s0 D t)) with (s_size s0).
  change (s_pos (mk s0 D t)) with (length D).
  assert (C : forall a b c d : nat, (s_size s0 < length D + (a + b) + c)%nat -> d = (a + b)%nat ->
             (s_size s0 <? length D + d + c)%nat = true) by (intros; apply Nat.ltb_lt; lia).
  destruct HR as [HR|HR].
  - unfold okplace in HR. destruct f as [[|]|[|]|[|]|s], key; cbn in HR |- *; try discriminate; reflexivity.
  - destruct key as [key|].
    + assert (E : CalculateStrSize (mk s0 D t) key true = Ok (((if is_str (fmode f) then 0 else 2) + calcs (s_esc s0) key + length (s_ksp s0))%nat)).
      { apply (calc_str (mk s0 D t) key true (fmode f)). exact (abs_mode _ _ _ _ HA). }
      rewrite E. cbn [bind]. unfold pneed in HR.
      destruct f as [[|]|[|]|[|]|s]; cbn -[Nat.ltb Nat.add] in HR |- *; try reflexivity.
      all: match goal with |- context [if ?b then _ else _] => assert (b = true) as -> by (apply Nat.ltb_lt; lia) end; reflexivity.
    + unfold pneed in HR. cbn [bind].
      destruct f as [[|]|[|]|[|]|s]; cbn -[Nat.ltb Nat.add] in HR |- *; try reflexivity.
      all: match goal with |- context [if ?b then _ else _] => assert (b = true) as -> by (apply Nat.ltb_lt; lia) end; reflexivity.
Qed.

Lemma abs_bump s0 k0 f r k v f' : abs s0 ((k0, f) :: r) -> place k v f = Some f' -> abs (bump s0 f) ((k0, f') :: r).
Proof.
  intros (W & Hl & junk & Hm) Hp. split; [|split].
  - inversion W; subst.
    + destruct v0; cbn in Hp; [discriminate|]. destruct k; [discriminate|]. inversion Hp. constructor.
    + constructor; auto. destruct f as [[|]|fs|vs|s], k; cbn in Hp; try discriminate; inversion Hp; cbn in *; congruence.
  - unfold bump. destruct (fmode f); exact Hl.
  - exists junk. cbn [smodes length] in *.
    assert (Ed : s_depth s0 = length (below r)) by (rewrite below_length; lia).
    assert (U : forall m, upd (s_modes s0) (s_depth s0) m = (below r ++ [m]) ++ junk).
    { intros m. rewrite Hm, <- !app_assoc, Ed. rewrite upd_app_r by lia. now rewrite Nat.sub_diag. }
    assert (N1 : fmode f' = nmode f).
    { destruct f as [[|]|fs|vs|s], k; cbn in Hp; try discriminate; inversion Hp; subst; cbn; auto.
      - now destruct fs.
      - now destruct vs. }
    unfold bump. destruct (fmode f) eqn:Ef; cbn [s_modes set_md]; rewrite ?U, ?N1; auto.
    + rewrite Hm. destruct f as [[|]|[|]|[|]|s]; cbn in Ef; try discriminate. reflexivity.
    + rewrite Hm. destruct f as [[|]|[|]|[|]|s]; cbn in Ef; try discriminate. reflexivity.
Qed.

Lemma prefix_accepted s0 k0 f r D t key extra :
  abs s0 ((k0, f) :: r) -> (length D + length t = S (s_size s0))%nat ->
  okplace key f = true -> (length D + pneed s0 f key + extra <= s_size s0)%nat ->
  exists t', InternalAppendNextPrefix key extra (mk s0 D t) = Ok (true, mk (bump s0 f) (D ++ pfx s0 f key) t')
    /\ length t' = (length t - length (pfx s0 f key))%nat.
Proof.
  intros HA HL HP HR. unfold InternalAppendNextPrefix.
  change (mode_at (mk s0 D t)) with (mode_at s0). rewrite (abs_mode _ _ _ _ HA). cbn [bind].
  change (s_vsp (mk s0 D t)) with (s_vsp s0). change (s_size (mk s0 D t)) with (s_size s0).
  change (s_pos (mk s0 D t)) with (length D).
  assert (Hmode : nth_error (s_modes s0) (s_depth s0) = Some (fmode f)).
  { pose proof (abs_mode _ _ _ _ HA) as M. unfold mode_at, rd in M.
    destruct (nth_error (s_modes s0) (s_depth s0)); congruence. }
  assert (Hdep : (s_depth s0 < length (s_modes s0))%nat) by (apply nth_error_Some; congruence).
  assert (Hb : mode_at (bump s0 f) = Ok (nmode f)).
  { unfold bump, mode_at, rd. destruct f as [[|]|[|]|[|]|s]; cbn [fmode nmode s_modes s_depth set_md];
    rewrite ?upd_nth_same by exact Hdep; rewrite ?Hmode; auto. }
  pose proof (pfx_need s0 f key) as HN.
  (* the separator *)
  assert (Hsep : exists t1,
     (match fmode f with
       | ObjectNext | ArrayNext => let* r := Append (Some (s_vsp s0)) (mk s0 D t) in Ok (snd r)
       | ObjectFirst => let* l := wr (s_modes (mk s0 D t)) (s_depth (mk s0 D t)) ObjectNext in
                        Ok (set_md (mk s0 D t) l (s_depth (mk s0 D t)))
       | ArrayFirst => let* l := wr (s_modes (mk s0 D t)) (s_depth (mk s0 D t)) ArrayNext in
                        Ok (set_md (mk s0 D t) l (s_depth (mk s0 D t)))
       | RootFirst => let* l := wr (s_modes (mk s0 D t)) (s_depth (mk s0 D t)) RootNext in
                        Ok (set_md (mk s0 D t) l (s_depth (mk s0 D t)))
       | _ => Ok (mk s0 D t)
       end) = Ok (mk (bump s0 f) (D ++ if sepb f then s_vsp s0 else []) t1)
     /\ length t1 = (length t - length (if sepb f then s_vsp s0 else []))%nat).
  { change (s_modes (mk s0 D t)) with (s_modes s0). change (s_depth (mk s0 D t)) with (s_depth s0).
    unfold pneed in HR. unfold bump.
    destruct f as [[|]|[|]|[|]|s]; cbn [fmode nmode sepb okplace place] in *; try discriminate;
      rewrite ?app_nil_r.
    all: try (rewrite wr_in by exact Hdep; cbn [bind]; rewrite mk_md; exists t; split; [reflexivity|cbn; lia]).
    all: try (rewrite append_raw_mk by lia; cbn [bind snd]; eexists; split;
       [reflexivity|rewrite znul_length, skipn_length; reflexivity]).
    all: unfold okplace in HP; destruct key; cbn in HP; discriminate. }
  destruct Hsep as (t1 & Hsep & Hl1).
  (* the guards *)
  assert (Hguard : (match fmode f with RootNext | StrMode => true | _ => false end
      || (is_obj (fmode f) && is_none key)
      || (match fmode f with RootFirst | ArrayFirst | ArrayNext => true | _ => false end && negb (is_none key)))%bool = false).
  { unfold okplace in HP. destruct f as [[|]|[|]|[|]|s], key; cbn in HP |- *; try discriminate; reflexivity. }
  rewrite Hguard.
  assert (Hnx : is_next (fmode f) = sepb f) by (destruct f as [[|]|[|]|[|]|s]; reflexivity).
  rewrite Hnx.
  assert (Hns : key <> None -> is_str (fmode f) = false /\ is_str (nmode f) = false).
  { intros Hk. unfold okplace in HP. destruct f as [[|]|[|]|[|]|s], key; cbn in HP |- *; try discriminate; auto; congruence. }
  assert (E0 : forall s, length (if sepb f then s_vsp s else []) = (if sepb f then length (s_vsp s) else 0)%nat)
    by (intros; destruct (sepb f); reflexivity).
  destruct key as [key|].
  - destruct (Hns ltac:(discriminate)) as [Hs1 Hs2].
    assert (E : CalculateStrSize (mk s0 D t) key true = Ok ((2 + calcs (s_esc s0) key + length (s_ksp s0))%nat)).
    { pose proof (calc_str (mk s0 D t) key true (fmode f) (abs_mode _ _ _ _ HA)) as C. rewrite Hs1 in C. exact C. }
    rewrite E. cbn [bind].
    unfold pneed in HR. unfold pfx in HN |- *. rewrite app_length in HN.
    match goal with |- context [if ?b then Ok (false, _) else _] => assert (b = false) as -> by (apply Nat.ltb_ge; lia) end.
    rewrite Hsep. cbn [bind].
    assert (Econf : s_esc (bump s0 f) = s_esc s0 /\ s_ksp (bump s0 f) = s_ksp s0 /\ s_size (bump s0 f) = s_size s0).
    { unfold bump. destruct (fmode f); auto. }
    destruct Econf as (E1 & E2 & E3).
    pose proof (escs_calc (s_esc s0) key) as HC.
    pose proof (E0 s0) as Hsl. 
    assert (Hl1' : length t1 = (length t - length (if sepb f then s_vsp s0 else []))%nat) by exact Hl1.
    clear Hl1. rename Hl1' into Hl1. rewrite Hsl in Hl1.
    set (sep := if sepb f then s_vsp s0 else []) in *.
    change (length sep = (if sepb f then length (s_vsp s0) else 0)%nat) in Hsl.
    destruct (append_str_mk (bump s0 f) (D ++ sep) t1 key (nmode f) Hb) as (t2 & A1 & A2 & A3).
    { rewrite Hs2, E1. cbn [Nat.add]. lia. }
    rewrite Hs2, E1 in A1, A2.
    match goal with |- context [InternalAppendStr key ?q] => change (InternalAppendStr key q) with (InternalAppendStr key (mk (bump s0 f) (D ++ sep) t1)) end.
    rewrite A1. cbn [bind].
    change (s_ksp (mk (bump s0 f) ?a ?b)) with (s_ksp (bump s0 f)). rewrite E2.
    assert (L2 : length t2 = (length t1 - (length (escs (s_esc s0) key) + 2))%nat).
    { rewrite A2, skipn_length. cbn [length]. rewrite app_length. cbn [length]. lia. }
    set (lit := 34 :: escs (s_esc s0) key ++ [34]) in *.
    assert (Hlit : length lit = (length (escs (s_esc s0) key) + 2)%nat).
    { unfold lit. cbn [length]. rewrite app_length. cbn [length]. lia. }
    rewrite append_raw_mk by (rewrite ?E3, ?znul_length, ?app_length; lia).
    cbn [bind snd]. eexists. split.
    + do 3 f_equal. rewrite <- !app_assoc. unfold lit. cbn [app]. rewrite <- !app_assoc. reflexivity.
    + rewrite znul_length, skipn_length, znul_length. repeat (rewrite ?app_length; cbn [length]).
      change (length (if sepb f then s_vsp s0 else [])) with (length sep). lia.
  - cbn [bind]. unfold pneed in HR.
    match goal with |- context [if ?b then Ok (false, _) else _] => assert (b = false) as -> by (apply Nat.ltb_ge; lia) end.
    rewrite Hsep. cbn [bind]. unfold pfx. rewrite app_nil_r. exists t1. split; [reflexivity|exact Hl1].
Qed.

(** ** Representation *)
Definition rep (s : ser) (st : stack) (D t : bytes) : Prop :=
  s_buf s = Some (D ++ t) /\ s_pos s = length D /\ (length D + length t = S (s_size s))%nat /\ t <> [] /\ abs s st.
Definition conf (s s' : ser) : Prop :=
  s_size s' = s_size s /\ s_esc s' = s_esc s /\ s_ksp s' = s_ksp s /\ s_vsp s' = s_vsp s
  /\ length (s_modes s') = length (s_modes s).

Lemma conf_refl s : conf s s.
Proof. repeat split. Qed.
Lemma conf_trans a b c : conf a b -> conf b c -> conf a c.
Proof. unfold conf. intros (A1&A2&A3&A4&A5) (B1&B2&B3&B4&B5). repeat split; congruence. Qed.
Lemma conf_bump s f : conf s (bump s f).
Proof. unfold bump, conf. destruct (fmode f); cbn; rewrite ?upd_length; auto 10. Qed.
Lemma conf_mk s D t : conf s (mk s D t).
Proof. repeat split. Qed.

Lemma rep_mk s st D t : rep s st D t -> s = mk s D t.
Proof. intros (H1 & H2 & _). unfold mk, set_bp. destruct s; cbn in *. now subst. Qed.
Lemma abs_mk s D t st : abs s st -> abs (mk s D t) st.
Proof. exact (fun H => H). Qed.
Lemma rep_intro s st D t : abs s st -> (length D + length t = S (s_size s))%nat -> t <> [] -> rep (mk s D t) st D t.
Proof. intros. repeat split; auto; apply H. Qed.

Lemma abs_ne s st : abs s st -> exists k f r, st = (k, f) :: r.
Proof. intros (W & Hl & _). destruct st as [|[k f] r]; [cbn in Hl; lia|eauto]. Qed.

Lemma bump_mode s0 k0 f r : abs s0 ((k0, f) :: r) -> mode_at (bump s0 f) = Ok (nmode f).
Proof.
  intros HA.
  assert (Hmode : nth_error (s_modes s0) (s_depth s0) = Some (fmode f)).
  { pose proof (abs_mode _ _ _ _ HA) as M. unfold mode_at, rd in M.
    destruct (nth_error (s_modes s0) (s_depth s0)); congruence. }
  assert (Hdep : (s_depth s0 < length (s_modes s0))%nat) by (apply nth_error_Some; congruence).
  unfold bump, mode_at, rd. destruct f as [[|]|[|]|[|]|s]; cbn [fmode nmode s_modes s_depth set_md];
    rewrite ?upd_nth_same by exact Hdep; rewrite ?Hmode; auto.
Qed.

Lemma bump_modes s0 k0 f r : abs s0 ((k0, f) :: r) ->
  exists junk, s_modes (bump s0 f) = below r ++ nmode f :: junk /\ s_depth (bump s0 f) = length (below r).
Proof.
  intros (W & Hl & junk & Hm). exists junk. cbn [smodes length] in *.
  assert (Ed : s_depth s0 = length (below r)) by (rewrite below_length; lia).
  split.
  - unfold bump.
    assert (U : forall m, upd (s_modes s0) (s_depth s0) m = below r ++ m :: junk).
    { intros m. rewrite Hm, <- app_assoc, Ed. rewrite upd_app_r by lia. now rewrite Nat.sub_diag. }
    destruct f as [[|]|[|]|[|]|s]; cbn [fmode s_modes set_md]; rewrite ?U; auto; rewrite Hm, <- app_assoc; reflexivity.
  - unfold bump. destruct (fmode f); exact Ed.
Qed.

Lemma abs_open s0 k0 f r key new nm :
  abs s0 ((k0, f) :: r) -> okplace key f = true -> frame_value new <> None -> fmode new = nm ->
  (S (s_depth s0) < length (s_modes s0))%nat ->
  (S (s_depth (bump s0 f)) < length (s_modes (bump s0 f)))%nat /\
  abs (set_md (bump s0 f) (upd (s_modes (bump s0 f)) (S (s_depth (bump s0 f))) nm) (S (s_depth (bump s0 f))))
      ((key, new) :: (k0, f) :: r).
Proof.
  intros HA Hp Hf Hn Hd. destruct (bump_modes _ _ _ _ HA) as (junk & Hm & Ed).
  pose proof (conf_bump s0 f) as (_ & _ & _ & _ & Hlen).
  assert (Hj : (1 <= length junk)%nat).
  { apply (f_equal (@length mode)) in Hm. rewrite Hlen, app_length in Hm. cbn [length] in Hm.
    destruct HA as (_ & Hl & _). cbn [length] in Hl. rewrite below_length in Hm. lia. }
  destruct junk as [|j0 junk]; [cbn in Hj; lia|].
  split.
  { rewrite Hm, Ed, app_length. cbn [length]. lia. }
  split; [|split].
  - constructor; [apply HA| |exact Hf]. cbn. unfold okplace in Hp. destruct (place key JNull f); congruence.
  - cbn [s_depth set_md length]. rewrite Ed, below_length. reflexivity.
  - exists junk. cbn [s_modes set_md smodes]. rewrite Hm, Ed.
    rewrite upd_app_r by lia. replace (S (length (below r)) - length (below r))%nat with 1%nat by lia.
    cbn [upd]. unfold below. cbn [map rev snd]. rewrite <- !app_assoc. cbn. now rewrite Hn.
Qed.

Lemma place_mode k v g g' : place k v g = Some g' -> fmode g' = nmode g.
Proof.
  intros Hp. destruct g as [[|]|fs|vs|s], k; cbn in Hp; try discriminate; inversion Hp; subst; cbn; auto.
  - now destruct fs.
  - now destruct vs.
Qed.

Lemma closed_total k f k0 g r : wfst ((k, f) :: (k0, g) :: r) ->
  exists v g', frame_value f = Some v /\ place k v g = Some g' /\ closed ((k, f) :: (k0, g) :: r) = Some ((k0, g') :: r).
Proof.
  intros W. inversion W as [|? ? ? W' Hp Hf]; subst. cbn in Hp.
  destruct (frame_value f) as [v|] eqn:Ef; [|congruence].
  assert (Ho : okplace k g = true) by (unfold okplace; destruct (place k JNull g); congruence).
  apply (place_ok k v g) in Ho as (g' & Hg). exists v, g'. cbn. rewrite Ef, Hg. auto.
Qed.

Lemma wfst_placed k v k0 g r g' : wfst ((k0, g) :: r) -> place k v g = Some g' -> wfst ((k0, g') :: r).
Proof.
  intros W Hp. inversion W; subst.
  - destruct v0; cbn in Hp; [discriminate|]. destruct k; [discriminate|]. inversion Hp. constructor.
  - constructor; auto. destruct g as [[|]|fs|vs|s], k; cbn in Hp; try discriminate; inversion Hp; cbn in *; congruence.
Qed.

Lemma abs_close s0 k f k0 g r v g' d : abs s0 ((k, f) :: (k0, g) :: r) -> place k v g = Some g' ->
  s_depth s0 = S d -> abs (set_md s0 (s_modes s0) d) ((k0, g') :: r).
Proof.
  intros (W & Hl & junk & Hm) Hp Hd. split; [|split].
  - inversion W; subst. eapply wfst_placed; eassumption.
  - cbn [length s_depth set_md] in *. lia.
  - exists (fmode f :: junk). cbn [s_modes set_md smodes] in *. rewrite Hm, (place_mode _ _ _ _ Hp).
    unfold below. cbn [map rev snd]. rewrite <- !app_assoc. reflexivity.
Qed.

(** ** Integers: same digits as the conversion routine *)
Lemma its_ts fuel : forall buf x num y, (x <= length buf)%nat -> (x < fuel)%nat ->
  (let* r := its_loop fuel buf x num in let '(b, y, n) := r in Ok (b, if n =? 0 then Some y else None))
  = ts_loop fuel buf x y num 0 10.
Proof.
  induction fuel as [|f IH]; intros buf x num y Hx Hf; [lia|]. cbn [its_loop ts_loop].
  destruct (N.eqb_spec num 0) as [E|E]; cbn [negb andb].
  - subst. reflexivity.
  - destruct x as [|x1]; cbn [Nat.eqb negb].
    + cbn [bind]. destruct (N.eqb_spec num 0); [congruence|reflexivity].
    + cbn [N.eqb negb andb]. replace (S x1 - 1)%nat with x1 by lia.
      assert (Hd : digit_char (num mod 10) = num mod 10 + 48).
      { pose proof (N.mod_lt num 10 ltac:(lia)). unfold digit_char. destruct (N.ltb_spec 9 (num mod 10)); alia. }
      rewrite Hd, wr_in by lia. cbn [bind]. rewrite <- (IH _ _ _ (S y)); [reflexivity| |lia].
      rewrite upd_length. lia.
Qed.

Lemma its_eq buf num : IntToStringU buf num = ToStringU buf num 0 10.
Proof.
  unfold IntToStringU, ToStringU.
  change (10 <? 2) with false. change (36 <? 10) with false. rewrite !orb_false_r.
  destruct (Nat.ltb_spec (length buf) 2) as [H|H]; [reflexivity|].
  rewrite wr_in by lia. cbn [bind].
  destruct (N.eqb_spec num 0) as [E|E].
  - rewrite wr_in by (rewrite upd_length; lia). reflexivity.
  - rewrite <- its_ts by (rewrite ?upd_length; lia).
    destruct (its_loop _ _ _ _) as [[[b2 x] n]| |]; cbn [bind]; auto.
    destruct (n =? 0); reflexivity.
Qed.

Lemma iti_eq buf num : IntToStringI buf num = ToStringI buf num 0 10.
Proof.
  unfold IntToStringI, ToStringI, neg64. rewrite its_eq.
  destruct (0 <=? num)%Z; [reflexivity|]. destruct (length buf <? 2)%nat; [reflexivity|].
  destruct (wr buf 0 45); cbn [bind]; auto. destruct (num =? - 2 ^ 63)%Z; cbn [bind]; auto. now rewrite its_eq.
Qed.

Lemma numeral_len n nd : n < W64 -> is_numeral 10 n nd -> (length nd <= 20)%nat.
Proof.
  intros Hn (Hne & Hf & Hh & Hv). destruct nd as [|d nd]; [congruence|]. cbn [length].
  destruct (N.eq_dec d 0) as [->|Hd].
  { cbn in Hh. specialize (Hh eq_refl). inversion Hh. cbn. lia. }
  pose proof (value_lower 10 nd d ltac:(lia) Hd) as HL.
  change (fold_left (fun a d0 => a * 10 + d0) nd d) with (value 10 (d :: nd)) in HL. rewrite Hv in HL.
  destruct (Nat.le_gt_cases (length nd) 19) as [|G]; [lia|].
  assert (10 ^ 20 <= 10 ^ N.of_nat (length nd)) by (apply N.pow_le_mono_r; lia).
  change (10 ^ 20) with 100000000000000000000 in H. unfold W64 in Hn. change (2^64) with 18446744073709551616 in Hn. nia.
Qed.

Lemma glyph_nz d : d < 10 -> glyph d <> 0.
Proof.
  intros H. unfold glyph, glyphs.
  assert (G : forall n, (n < 10)%nat -> nth n glyphs 0 <> 0).
  { intros n Hn. do 10 (destruct n as [|n]; [cbn; lia|]). lia. }
  apply G. lia.
Qed.

Lemma cstr_app (a : bytes) r : Forall (fun c => c <> 0) a -> cstr (a ++ 0 :: r) = Ok a.
Proof.
  induction a as [|c a IH]; intros H; cbn; [reflexivity|].
  pose proof (Forall_inv H) as Hc. destruct (N.eqb_spec c 0); [congruence|].
  rewrite IH by (eapply Forall_inv_tail; eauto). reflexivity.
Qed.

Lemma dec_int z : (- 2^63 < z < 2^63)%Z -> exists t tmp, dec_text z t /\ (length t <= 21)%nat /\
  IntToStringI (repeat 0 44) z = Ok (tmp, true) /\ cstr tmp = Ok t.
Proof.
  intros Hz. rewrite iti_eq.
  destruct (numeral_exists 10 (Z.to_N (Z.abs z)) ltac:(lia)) as (nd & Hnd).
  assert (HW : Z.to_N (Z.abs z) < W64) by (unfold W64; change (2^64) with 18446744073709551616; lia).
  pose proof (numeral_len _ _ HW Hnd) as HL.
  destruct (ToStringI_total (repeat 0 44) z 0 10 ltac:(lia)) as (b' & ok & E & Lb & Hok & Ht).
  assert (ok = true) as ->.
  { apply Hok. split; [lia|]. exists nd. split; [exact Hnd|].
    unfold numeral_text. change (0 =? 0) with true. cbv iota. rewrite map_length.
    change (length (repeat 0 44)) with 44%nat. destruct (z <? 0)%Z; lia. }
  destruct (Ht eq_refl nd Hnd) as (rest & ->).
  exists ((if (z <? 0)%Z then [45] else []) ++ map glyph nd). eexists. split; [|split; [|split; [exact E|]]].
  - exists nd. auto.
  - rewrite app_length, map_length. destruct (z <? 0)%Z; cbn; lia.
  - unfold numeral_text. change (0 =? 0) with true. cbv iota. rewrite app_assoc. apply cstr_app.
    apply Forall_app. split; [destruct (z <? 0)%Z; repeat constructor; lia|].
    apply Forall_map. destruct Hnd as (_ & Hf & _). eapply Forall_impl; [|exact Hf]. exact glyph_nz.
Qed.

Lemma dec_uint n : n < W64 -> exists t tmp, dec_text (Z.of_N n) t /\
  IntToStringU (repeat 0 44) n = Ok (tmp, true) /\ cstr tmp = Ok t.
Proof.
  intros HW. rewrite its_eq.
  destruct (numeral_exists 10 n ltac:(lia)) as (nd & Hnd).
  pose proof (numeral_len _ _ HW Hnd) as HL.
  destruct (ToStringU_total (repeat 0 44) n 0 10) as (b' & ok & E & Lb & Hok & Ht).
  assert (ok = true) as ->.
  { apply Hok. split; [lia|]. exists nd. split; [exact Hnd|].
    unfold numeral_text. change (0 =? 0) with true. cbv iota. rewrite map_length.
    change (length (repeat 0 44)) with 44%nat. lia. }
  destruct (Ht eq_refl nd Hnd) as (rest & ->).
  exists (map glyph nd). eexists. split; [|split; [exact E|]].
  - exists nd. replace (Z.to_N (Z.abs (Z.of_N n))) with n by lia.
    destruct (Z.ltb_spec (Z.of_N n) 0); [lia|]. auto.
  - unfold numeral_text. change (0 =? 0) with true. cbv iota. apply cstr_app.
    apply Forall_map. destruct Hnd as (_ & Hf & _). eapply Forall_impl; [|exact Hf]. exact glyph_nz.
Qed.

Lemma dec_text_unique z t t' : dec_text z t -> dec_text z t' -> t = t'.
Proof.
  intros (a & Ha & ->) (b & Hb & ->). now rewrite (numeral_unique 10 _ a b ltac:(lia) Ha Hb).
Qed.

(** ** Costs *)
Lemma calc1_cost esc c : calc1 esc c = charcost esc c.
Proof.
  unfold calc1, charcost. cbn [existsb]. repeat rewrite orb_assoc. rewrite orb_false_r.
  destruct (_ || _)%bool; [reflexivity|]. destruct (c =? 47), esc; reflexivity.
Qed.
Lemma calcs_cost esc v : calcs esc v = strcost esc v.
Proof.
  induction v as [|c v IH]; [reflexivity|]. change (calcs esc (c :: v)) with (calc1 esc c + calcs esc v)%nat.
  cbn [strcost]. now rewrite calc1_cost, IH.
Qed.
Lemma pneed_cost s k0 f r k : pneed s f k = prefixcost (s_esc s) (s_ksp s) (s_vsp s) k ((k0, f) :: r).
Proof. unfold pneed, prefixcost. destruct k; rewrite ?calcs_cost; destruct f as [[|]|[|]|[|]|]; reflexivity. Qed.

Lemma strn_cost s v m : mode_at s = Ok m -> Forall (fun x => charcost (s_esc s) x = 1%nat) v ->
  CalculateStrSizeN s v false = CalculateStrSize s v false.
Proof.
  intros Hm Hv. unfold CalculateStrSizeN, CalculateStrSize. rewrite Hm. cbn [bind].
  do 3 f_equal. fold (calcs (s_esc s) v). rewrite calcs_cost.
  destruct v as [|c0 v]; [reflexivity|]. cbn [nth]. rewrite calc1_cost, (Forall_inv Hv).
  induction Hv as [|c l Hc Hl IH]; cbn [fold_right strcost]; [reflexivity|]. rewrite Hc, <- IH. reflexivity.
Qed.

(** ** The text a call adds *)
Definition value_text (c : call) : option (option bytes * (bytes -> Prop)) :=
  match c with
  | CNull k => Some (k, fun t => t = [110; 117; 108; 108])
  | CBool k b => Some (k, fun t => t = if b then [116;114;117;101] else [102;97;108;115;101])
  | CInt k z => Some (k, dec_text z)
  | CUInt k n => Some (k, dec_text (Z.of_N n))
  | CDouble k t0 => Some (k, fun t => t = t0)
  | _ => None
  end.
Definition opener (f : frame) : N := match f with FObj _ => 123 | FArr _ => 91 | _ => 34 end.
Definition closer (f : frame) : N := match f with FObj _ => 125 | FArr _ => 93 | _ => 34 end.

Definition emits (s : ser) (c : call) (f : frame) (u : bytes) : Prop :=
  match c with
  | CStartObject k => u = pfx s f k ++ [123]
  | CStartArray k => u = pfx s f k ++ [91]
  | CStartStr k => u = pfx s f k ++ [34]
  | CEndObject | CEndArray | CEndStr => u = [closer f]
  | CStr k (Some v) | CStrN k (Some v) =>
      u = match f with FStr _ => escs (s_esc s) v | _ => pfx s f k ++ 34 :: escs (s_esc s) v ++ [34] end
  | CRaw (Some t) => u = t
  | CStr _ None | CStrN _ None | CRaw None | CFinish => False
  | _ => exists k P t, value_text c = Some (k, P) /\ P t /\ u = pfx s f k ++ t
  end.

(** What a call that is not Finish does. *)
Definition outcome (c : call) (s : ser) (k0 : option bytes) (f : frame) (r : stack) (D : bytes)
  (res : res (bool * ser)) : Prop :=
  let st := (k0, f) :: r in
  exists ok s', res = Ok (ok, s')
  /\ (ok = true -> conf s s' /\ exists st' u t', step c st = Some st' /\ emits s c f u /\ rep s' st' (D ++ u) (0 :: t'))
  /\ (ok = false -> s' = s)
  /\ (ok = true <-> step c st <> None /\ (opens c = true -> length st < length (s_modes s))%nat
        /\ exists n, cost (s_esc s) (s_ksp s) (s_vsp s) c st n /\ (length D + n <= s_size s)%nat).

Lemma outcome_no c s k0 f r D t : rep s ((k0, f) :: r) D t ->
  (step c ((k0, f) :: r) = None \/ (opens c = true /\ length (s_modes s) <= length ((k0, f) :: r))%nat
   \/ (forall n, cost (s_esc s) (s_ksp s) (s_vsp s) c ((k0, f) :: r) n -> (s_size s < length D + n)%nat)) ->
  outcome c s k0 f r D (Ok (false, s)).
Proof.
  intros HR HX. exists false, s. split; [auto|]. split; [discriminate|]. split; [auto|]. split; [discriminate|].
  intros (A & B & n & C & E). exfalso. destruct HX as [X|[[X Y]|X]]; [congruence| |].
  - specialize (B X). lia.
  - specialize (X _ C). lia.
Qed.

Lemma outcome_yes c s k0 f r D s' st' u t' n : conf s s' -> step c ((k0, f) :: r) = Some st' ->
  emits s c f u -> rep s' st' (D ++ u) (0 :: t') -> (opens c = true -> length ((k0, f) :: r) < length (s_modes s))%nat ->
  cost (s_esc s) (s_ksp s) (s_vsp s) c ((k0, f) :: r) n -> (length D + n <= s_size s)%nat ->
  outcome c s k0 f r D (Ok (true, s')).
Proof.
  intros. exists true, s'. split; [auto|]. split; [intros _; split; [auto|]; exists st', u, t'; auto|].
  split; [discriminate|]. split; [|auto]. intros _. split; [congruence|]. split; [auto|]. exists n; auto.
Qed.

Lemma okplace_placed key v f k0 r : okplace key f = false -> placed key v ((k0, f) :: r) = None.
Proof. unfold okplace. destruct f as [[|]|fs|vs|s0], key; cbn; congruence. Qed.

(** Values written with strcpy: [need] bytes asked for, [u] written. *)
Lemma text_outcome c key v (P : bytes -> Prop) u need s k0 f r D t :
  rep s ((k0, f) :: r) D t ->
  value_text c = Some (key, P) -> P u ->
  step c ((k0, f) :: r) = placed key v ((k0, f) :: r) ->
  (length u <= need)%nat ->
  (forall n, cost (s_esc s) (s_ksp s) (s_vsp s) c ((k0, f) :: r) n <-> n = (pneed s f key + need)%nat) ->
  outcome c s k0 f r D
    (let* q := InternalAppendNextPrefix key need s in
     match q with (false, s1) => Ok (false, s1) | (true, s1) => let* s2 := cpy u s1 in Ok (true, s2) end).
Proof.
  intros HR Hv HP Hs Hu Hc. pose proof (rep_mk _ _ _ _ HR) as Es. destruct HR as (R1 & R2 & R3 & R4 & R5).
  assert (HR : rep s ((k0, f) :: r) D t) by (split; auto).
  assert (No : opens c = false) by (destruct c; try discriminate; reflexivity).
  destruct (okplace key f) eqn:Ho.
  - destruct (Nat.le_gt_cases (length D + pneed s f key + need) (s_size s)) as [Hroom|Hroom].
    + destruct (prefix_accepted s k0 f r D t key need R5 R3 Ho Hroom) as (t1 & E1 & L1).
      rewrite <- Es in E1. rewrite E1. cbn [bind].
      pose proof (pfx_need s f key) as HN.
      rewrite cpy_mk by lia. cbn [bind].
      destruct (proj1 (place_ok key v f) Ho) as (f' & Hf').
      destruct (skipn (length u) t1) as [|x t2] eqn:Et.
      { exfalso. apply (f_equal (@length N)) in Et. rewrite skipn_length in Et. cbn in Et. lia. }
      cbn [znul].
      eapply (outcome_yes c s k0 f r D _ ((k0, f') :: r) (pfx s f key ++ u) t2 (pneed s f key + need)).
      * eapply conf_trans; [apply conf_bump|apply conf_mk].
      * rewrite Hs. cbn. now rewrite Hf'.
      * destruct c; cbn in Hv; try discriminate; cbn [emits value_text]; eauto 10.
      * rewrite app_assoc. apply rep_intro; [eapply abs_bump; eauto| |discriminate].
        apply (f_equal (@length N)) in Et. rewrite skipn_length in Et. cbn [length] in Et |- *.
        rewrite !app_length. destruct (conf_bump s f) as (-> & _). lia.
      * rewrite No. discriminate.
      * apply Hc. reflexivity.
      * lia.
    + pose proof (prefix_refused s k0 f r D t key need R5 R3 (or_intror Hroom)) as E1.
      rewrite <- Es in E1. rewrite E1. cbn [bind]. eapply outcome_no; [exact HR|]. right. right.
      intros n Hn. apply Hc in Hn. lia.
  - pose proof (prefix_refused s k0 f r D t key need R5 R3 (or_introl Ho)) as E1.
    rewrite <- Es in E1. rewrite E1. cbn [bind]. eapply outcome_no; [exact HR|]. left.
    rewrite Hs. now apply okplace_placed.
Qed.

Lemma start_outcome c key new s k0 f r D t :
  rep s ((k0, f) :: r) D t ->
  (new = FObj [] \/ new = FArr [] \/ new = FStr []) ->
  step c ((k0, f) :: r) = opened key new ((k0, f) :: r) -> opens c = true ->
  (forall u, emits s c f u <-> u = pfx s f key ++ [opener new]) ->
  (forall n, cost (s_esc s) (s_ksp s) (s_vsp s) c ((k0, f) :: r) n <-> n = (pneed s f key + 1)%nat) ->
  outcome c s k0 f r D (start key (opener new) (fmode new) s).
Proof.
  intros HR Hnew Hs Ho He Hc. pose proof (rep_mk _ _ _ _ HR) as Es. destruct HR as (R1 & R2 & R3 & R4 & R5).
  assert (HR : rep s ((k0, f) :: r) D t) by (split; auto).
  assert (Hdl : length ((k0, f) :: r) = S (s_depth s)) by apply R5.
  unfold start. destruct (Nat.leb_spec (length (s_modes s)) (s_depth s + 1)) as [Hd|Hd].
  { eapply outcome_no; [exact HR|]. right. left. split; [exact Ho|]. lia. }
  destruct (okplace key f) eqn:Hok.
  - destruct (Nat.le_gt_cases (length D + pneed s f key + 1) (s_size s)) as [Hroom|Hroom].
    + destruct (prefix_accepted s k0 f r D t key 1 R5 R3 Hok Hroom) as (t1 & E1 & L1).
      rewrite <- Es in E1. rewrite E1. cbn [bind].
      pose proof (pfx_need s f key) as HN.
      destruct t1 as [|x t1]; [cbn in L1; lia|]. rewrite put_mk. cbn [bind].
      destruct t1 as [|y t1]; [cbn in L1; lia|]. rewrite nul_mk by discriminate. cbn [bind znul].
      change (s_modes (mk (bump s f) ?a ?b)) with (s_modes (bump s f)).
      change (s_depth (mk (bump s f) ?a ?b)) with (s_depth (bump s f)).
      destruct (abs_open s k0 f r key new (fmode new) R5 Hok) as (Hd2 & Habs); [|reflexivity|lia|].
      { destruct Hnew as [->|[->| ->]]; discriminate. }
      rewrite wr_in by exact Hd2. cbn [bind]. rewrite mk_md.
      eapply (outcome_yes c s k0 f r D _ ((key, new) :: (k0, f) :: r) (pfx s f key ++ [opener new]) t1 (pneed s f key + 1)).
      * destruct (conf_bump s f) as (C1 & C2 & C3 & C4 & C5). repeat split; auto.
        cbn. now rewrite upd_length.
      * rewrite Hs. unfold opened. cbn. unfold okplace in Hok. destruct (place key JNull f); [reflexivity|discriminate].
      * now apply He.
      * rewrite app_assoc. apply rep_intro; [exact Habs| |discriminate].
        cbn [length] in L1 |- *. rewrite !app_length. cbn [length s_size set_md].
        destruct (conf_bump s f) as (-> & _). lia.
      * intros _. lia.
      * now apply Hc.
      * lia.
    + pose proof (prefix_refused s k0 f r D t key 1 R5 R3 (or_intror Hroom)) as E1.
      rewrite <- Es in E1. rewrite E1. cbn [bind]. eapply outcome_no; [exact HR|]. right. right.
      intros n Hn. apply Hc in Hn. lia.
  - pose proof (prefix_refused s k0 f r D t key 1 R5 R3 (or_introl Hok)) as E1.
    rewrite <- Es in E1. rewrite E1. cbn [bind]. eapply outcome_no; [exact HR|]. left.
    rewrite Hs. unfold opened. now rewrite okplace_placed.
Qed.

(** Closing the innermost scope. *)
Lemma finish_scope_ok s k f k0 g r D t okm :
  rep s ((k, f) :: (k0, g) :: r) D t -> okm (fmode f) = true ->
  exists v g', frame_value f = Some v /\ place k v g = Some g' /\
  if (length D + 1 <=? s_size s)%nat
  then exists s' t', finish_scope okm (closer f) s = Ok (true, s') /\ conf s s' /\ rep s' ((k0, g') :: r) (D ++ [closer f]) (0 :: t')
  else finish_scope okm (closer f) s = Ok (false, s).
Proof.
  intros HR Hm. pose proof (rep_mk _ _ _ _ HR) as Es. destruct HR as (R1 & R2 & R3 & R4 & R5).
  destruct (closed_total k f k0 g r (proj1 R5)) as (v & g' & Hv & Hp & _). exists v, g'. split; [auto|]. split; [auto|].
  unfold finish_scope. rewrite (abs_mode _ _ _ _ R5). cbn [bind]. rewrite Hm. cbn [negb]. rewrite R2.
  destruct (Nat.leb_spec (length D + 1) (s_size s)) as [Hroom|Hroom].
  - destruct (Nat.ltb_spec (s_size s) (length D + 1)); [lia|]. rewrite Es.
    destruct t as [|x t]; [congruence|]. cbn [length] in R3. rewrite put_mk. cbn [bind].
    destruct t as [|y t]; [cbn in R3; lia|]. rewrite nul_mk by discriminate. cbn [bind znul].
    change (s_depth (mk s (D ++ [closer f]) (0 :: t))) with (s_depth s).
    assert (Hd : exists d, s_depth s = S d). { destruct R5 as (_ & Hl & _). cbn [length] in Hl. exists (length r). lia. }
    destruct Hd as (d & Hd). rewrite Hd. rewrite mk_md.
    eexists. exists t. split; [reflexivity|]. split; [repeat split|].
    apply rep_intro; [|rewrite app_length; cbn [length s_size set_md] in *; lia|discriminate].
    change (s_modes (mk s (D ++ [closer f]) (0 :: t))) with (s_modes s).
    eapply abs_close; eauto.
  - destruct (Nat.ltb_spec (s_size s) (length D + 1)); [reflexivity|lia].
Qed.

Lemma end_outcome c okm s k0 f r D t :
  rep s ((k0, f) :: r) D t ->
  (forall g, okm (fmode g) = true -> frame_value g <> None) ->
  step c ((k0, f) :: r) = (if okm (fmode f) then closed ((k0, f) :: r) else None) ->
  opens c = false -> (forall u, emits s c f u <-> u = [closer f]) ->
  (forall n, cost (s_esc s) (s_ksp s) (s_vsp s) c ((k0, f) :: r) n <-> n = 1%nat) ->
  forall ch, (okm (fmode f) = true -> ch = closer f) ->
  outcome c s k0 f r D (finish_scope okm ch s).
Proof.
  intros HR Hokm Hs Ho He Hc ch Hch. 
  destruct (okm (fmode f)) eqn:Hm.
  - rewrite (Hch eq_refl).
    destruct r as [|[k1 g] r].
    { exfalso. destruct HR as (_ & _ & _ & _ & (W & _)). inversion W as [v0 Hv0|]; subst.
      - specialize (Hokm _ Hm). cbn in Hokm. congruence.
      - cbn in *. congruence. }
    destruct (finish_scope_ok s k0 f k1 g r D t okm HR Hm) as (v & g' & Hv & Hp & X).
    destruct (Nat.leb_spec (length D + 1) (s_size s)) as [Hroom|Hroom].
    + destruct X as (s' & t' & E & Hcf & HR'). rewrite E.
      eapply outcome_yes; [exact Hcf| | |exact HR'| | |].
      * rewrite Hs. cbn [closed]. rewrite Hv. cbn [placed]. rewrite Hp. reflexivity.
      * now apply He.
      * rewrite Ho. discriminate.
      * now apply Hc.
      * lia.
    + rewrite X. eapply outcome_no; [exact HR|]. right. right. intros n Hn. apply Hc in Hn. lia.
  - unfold finish_scope. destruct HR as (R1 & R2 & R3 & R4 & R5).
    rewrite (abs_mode _ _ _ _ R5). cbn [bind]. rewrite Hm. cbn [negb].
    eapply outcome_no; [split; eauto|]. left. exact Hs.
Qed.

Lemma str_outcome c key v calc s k0 f r D t :
  rep s ((k0, f) :: r) D t ->
  step c ((k0, f) :: r) = (match f with FStr u => Some ((k0, FStr (u ++ v)) :: r) | _ => placed key (JStr v) ((k0, f) :: r) end) ->
  opens c = false ->
  (forall u, emits s c f u <-> u = match f with FStr _ => escs (s_esc s) v | _ => pfx s f key ++ 34 :: escs (s_esc s) v ++ [34] end) ->
  (forall n, cost (s_esc s) (s_ksp s) (s_vsp s) c ((k0, f) :: r) n <->
             n = match f with FStr _ => calcs (s_esc s) v | _ => (pneed s f key + (2 + calcs (s_esc s) v))%nat end) ->
  calc s v false = Ok ((if is_str (fmode f) then 0 else 2) + calcs (s_esc s) v)%nat ->
  outcome c s k0 f r D (append_str calc key (Some v) s).
Proof.
  intros HR Hs Ho He Hc Hcalc. pose proof (rep_mk _ _ _ _ HR) as Es. destruct HR as (R1 & R2 & R3 & R4 & R5).
  assert (HR : rep s ((k0, f) :: r) D t) by (split; auto).
  pose proof (escs_calc (s_esc s) v) as HE.
  unfold append_str. rewrite Hcalc. cbn [bind]. rewrite (abs_mode _ _ _ _ R5). cbn [bind].
  destruct (is_str (fmode f)) eqn:Hstr.
  - destruct f as [[|]|[|]|[|]|w]; try discriminate. cbn [bind].
    rewrite (abs_mode _ _ _ _ R5). cbn [bind fmode is_str andb Nat.add]. rewrite R2.
    destruct (Nat.ltb_spec (s_size s) (length D + calcs (s_esc s) v)) as [Hroom|Hroom].
    { eapply outcome_no; [exact HR|]. right. right. intros n Hn. apply Hc in Hn. lia. }
    rewrite Es. destruct (append_str_mk s D t v StrMode) as (t' & A1 & A2 & A3).
    { exact (abs_mode _ _ _ _ R5). }
    { cbn [is_str]. lia. }
    cbn [is_str] in A1, A2. rewrite A1. cbn [bind]. rewrite <- Es.
    assert (Lt : length t' = (length t - length (escs (s_esc s) v))%nat) by (rewrite A2, skipn_length; reflexivity).
    destruct t' as [|x t']; [congruence|]. cbn [znul].
    eapply outcome_yes; [apply conf_mk| exact Hs | | | | apply Hc; reflexivity |].
    + now apply He.
    + apply rep_intro; [|rewrite app_length; cbn [length] in *; lia|discriminate].
      destruct R5 as (W & Hl & junk & Hm). split; [|split; [exact Hl|exists junk; exact Hm]].
      inversion W; subst. constructor; auto. discriminate.
    + rewrite Ho. discriminate.
    + lia.
  - assert (Hs' : step c ((k0, f) :: r) = placed key (JStr v) ((k0, f) :: r)).
    { rewrite Hs. destruct f; auto. discriminate. }
    assert (He' : forall u, emits s c f u <-> u = pfx s f key ++ 34 :: escs (s_esc s) v ++ [34]).
    { intros u. rewrite He. destruct f; try reflexivity. discriminate. }
    assert (Hc' : forall n, cost (s_esc s) (s_ksp s) (s_vsp s) c ((k0, f) :: r) n <-> n = (pneed s f key + (2 + calcs (s_esc s) v))%nat).
    { intros u. rewrite Hc. destruct f; try reflexivity. discriminate. }
    clear Hs He Hc.
    destruct (okplace key f) eqn:Hok.
    + destruct (Nat.le_gt_cases (length D + pneed s f key + (2 + calcs (s_esc s) v)) (s_size s)) as [Hroom|Hroom].
      * destruct (prefix_accepted s k0 f r D t key _ R5 R3 Hok Hroom) as (t1 & E1 & L1).
        rewrite <- Es in E1. rewrite E1. cbn [bind].
        pose proof (pfx_need s f key) as HN.
        assert (Hmb : mode_at (mk (bump s f) (D ++ pfx s f key) t1) = Ok (nmode f)) by exact (bump_mode _ _ _ _ R5).
        rewrite Hmb. cbn [bind].
        assert (Hn : is_str (nmode f) = false) by (destruct f; auto; discriminate). rewrite Hn. cbn [andb].
        destruct (conf_bump s f) as (C1 & C2 & C3 & C4 & C5).
        destruct (append_str_mk (bump s f) (D ++ pfx s f key) t1 v (nmode f)) as (t' & A1 & A2 & A3).
        { exact (bump_mode _ _ _ _ R5). }
        { rewrite Hn, C2. lia. }
        rewrite Hn, C2 in A1, A2. rewrite A1. cbn [bind].
        destruct (proj1 (place_ok key (JStr v) f) Hok) as (f' & Hf').
        assert (Lt : length t' = (length t1 - (length (escs (s_esc s) v) + 2))%nat).
        { rewrite A2, skipn_length. cbn [length]. rewrite app_length. cbn [length]. lia. }
        destruct t' as [|x t']; [congruence|]. cbn [znul].
        eapply outcome_yes with (st' := (k0, f') :: r); [eapply conf_trans; [apply conf_bump|apply conf_mk]| | | | | apply Hc'; reflexivity|].
        -- rewrite Hs'. cbn. now rewrite Hf'.
        -- apply He'. reflexivity.
        -- rewrite app_assoc. apply rep_intro; [eapply abs_bump; eauto| |discriminate].
           repeat (rewrite app_length; cbn [length]). cbn [length] in Lt. lia.
        -- rewrite Ho. discriminate.
        -- lia.
      * pose proof (prefix_refused s k0 f r D t key _ R5 R3 (or_intror Hroom)) as E1.
        rewrite <- Es in E1. rewrite E1. cbn [bind]. eapply outcome_no; [exact HR|]. right. right.
        intros n Hn. apply Hc' in Hn. lia.
    + pose proof (prefix_refused s k0 f r D t key (2 + calcs (s_esc s) v) R5 R3 (or_introl Hok)) as E1.
      rewrite <- Es in E1. rewrite E1. cbn [bind]. eapply outcome_no; [exact HR|]. left.
      rewrite Hs'. now apply okplace_placed.
Qed.

Lemma raw_outcome (u : bytes) s k0 f r D t :
  rep s ((k0, f) :: r) D t -> outcome (CRaw (Some u)) s k0 f r D (Append (Some u) s).
Proof.
  intros HR. pose proof (rep_mk _ _ _ _ HR) as Es. destruct HR as (R1 & R2 & R3 & R4 & R5).
  destruct (Nat.le_gt_cases (length D + length u) (s_size s)) as [Hroom|Hroom].
  - pose proof (append_raw_mk s D t u R3 ltac:(lia)) as E. rewrite <- Es in E. rewrite E.
    destruct (skipn (length u) t) as [|x t'] eqn:Et.
    { exfalso. apply (f_equal (@length N)) in Et. rewrite skipn_length in Et. cbn in Et. lia. }
    apply (f_equal (@length N)) in Et. rewrite skipn_length in Et. cbn [length] in Et. cbn [znul].
    assert (exists st', step (CRaw (Some u)) ((k0, f) :: r) = Some st' /\ abs s st') as (st' & Hst & Habs).
    { destruct f as [v0|fs|vs|w]; try (eexists; split; [reflexivity|exact R5]).
      eexists. split; [reflexivity|].
      destruct R5 as (W & Hl & junk & Hm). split; [|split; [exact Hl|exists junk; exact Hm]].
      inversion W; subst. constructor; auto. discriminate. }
    eapply outcome_yes; [apply conf_mk|exact Hst|reflexivity| |discriminate|reflexivity|lia].
    apply rep_intro; [exact Habs| |discriminate]. rewrite app_length. cbn [length]. lia.
  - unfold Append. rewrite R2. destruct (Nat.ltb_spec (s_size s) (length D + length u)); [|lia].
    eapply outcome_no; [split; eauto|]. right. right. intros n Hn. cbn in Hn. lia.
Qed.

Lemma call_outcome c s k0 f r D t :
  rep s ((k0, f) :: r) D t -> argok (s_esc s) c -> c <> CFinish -> outcome c s k0 f r D (do_call c s).
Proof.
  intros HR Ha Hnf. assert (Hm : mode_at s = Ok (fmode f)) by (apply (abs_mode _ k0 f r); apply HR).
  assert (Hsn : forall key, s_vsp s = s_vsp s -> pneed s f key = prefixcost (s_esc s) (s_ksp s) (s_vsp s) key ((k0, f) :: r))
    by (intros; apply pneed_cost).
  destruct c; cbn [do_call].
  - unfold StartObject. eapply (start_outcome _ k (FObj [])); eauto; try reflexivity.
    intros n. cbn. now rewrite Hsn.
  - unfold EndObject. eapply end_outcome; eauto; try reflexivity.
    + intros g. destruct g as [[|]|[|]|[|]|]; cbn; congruence.
    + destruct f as [[|]|[|]|[|]|]; reflexivity.
    + destruct f as [[|]|[|]|[|]|]; cbn; congruence.
  - unfold StartArray. eapply (start_outcome _ k (FArr [])); eauto; try reflexivity.
    intros n. cbn. now rewrite Hsn.
  - unfold EndArray. eapply end_outcome; eauto; try reflexivity.
    + intros g. destruct g as [[|]|[|]|[|]|]; cbn; congruence.
    + destruct f as [[|]|[|]|[|]|]; reflexivity.
    + destruct f as [[|]|[|]|[|]|]; cbn; congruence.
  - unfold StartStr. eapply (start_outcome _ k (FStr [])); eauto; try reflexivity.
    intros n. cbn. now rewrite Hsn.
  - unfold EndStr. eapply end_outcome; eauto; try reflexivity.
    + intros g. destruct g as [[|]|[|]|[|]|]; cbn; congruence.
    + destruct f as [[|]|[|]|[|]|]; reflexivity.
    + destruct f as [[|]|[|]|[|]|]; cbn; congruence.
  - unfold AppendNull, append_text. eapply text_outcome; eauto; try reflexivity.
    intros n. cbn. now rewrite Hsn.
  - unfold AppendBool. eapply text_outcome; eauto; try reflexivity.
    + destruct b; cbn; lia.
    + intros n. cbn. now rewrite Hsn.
  - unfold AppendInt. destruct (dec_int z Ha) as (u & tmp & Hu & Hl & E & Ec). rewrite E. cbn [bind negb].
    rewrite Ec. cbn [bind]. unfold append_text. eapply text_outcome; eauto; try reflexivity.
    intros n. cbn [cost]. rewrite Hsn by reflexivity. split.
    + intros (u' & Hu' & ->). now rewrite (dec_text_unique _ _ _ Hu Hu').
    + intros ->. eauto.
  - unfold AppendUInt. destruct (dec_uint n Ha) as (u & tmp & Hu & E & Ec). rewrite E. cbn [bind negb].
    rewrite Ec. cbn [bind]. unfold append_text. eapply text_outcome; eauto; try reflexivity.
    intros n0. cbn [cost]. rewrite Hsn by reflexivity. split.
    + intros (u' & Hu' & ->). now rewrite (dec_text_unique _ _ _ Hu Hu').
    + intros ->. eauto.
  - unfold AppendDouble, append_text. eapply text_outcome; eauto; try reflexivity.
    intros n. cbn. now rewrite Hsn.
  - destruct v as [v|].
    + unfold AppendStr. eapply str_outcome; eauto; try reflexivity.
      * intros n. cbn [cost]. rewrite Hsn, calcs_cost by reflexivity. destruct f; reflexivity.
      * rewrite (calc_str s v false _ Hm). f_equal. lia.
    + eapply outcome_no; [exact HR|]. left. reflexivity.
  - destruct v as [v|].
    + unfold AppendStrN. eapply str_outcome; eauto; try reflexivity.
      * intros n. cbn [cost]. rewrite Hsn, calcs_cost by reflexivity. destruct f; reflexivity.
      * rewrite (strn_cost s v _ Hm Ha), (calc_str s v false _ Hm). f_equal. lia.
    + eapply outcome_no; [exact HR|]. left. reflexivity.
  - destruct v as [v|].
    + now apply (raw_outcome v s k0 f r D t).
    + eapply outcome_no; [exact HR|]. left. reflexivity.
  - congruence.
Qed.

(** ** Finish *)
Fixpoint ctext (n : nat) (st : stack) : bytes :=
  match n, st with
  | S m, (_, f) :: _ => closer f :: match closed st with Some st' => ctext m st' | None => [] end
  | _, _ => []
  end.

Definition finres (s : ser) (st : stack) (D : bytes) (res : res (bool * ser)) : Prop :=
  exists ok s' n st' t', res = Ok (ok, s') /\ conf s s' /\ close_all n st = Some st'
  /\ rep s' st' (D ++ ctext n st) t' /\ length (ctext n st) = n
  /\ (n <> 0%nat -> exists t'', t' = 0 :: t'') /\ (n = 0%nat -> s' = s)
  /\ (ok = true -> n = (length st - 1)%nat)
  /\ (ok = false -> (n < length st - 1)%nat /\ length (D ++ ctext n st) = s_size s).

Lemma closed_length st st' : closed st = Some st' -> length st = S (length st').
Proof.
  destruct st as [|[k f] [|[k0 g] r]]; cbn; try discriminate.
  - destruct (frame_value f); discriminate.
  - destruct (frame_value f); [|discriminate]. destruct (place k j g); [|discriminate]. intros H; inversion H. reflexivity.
Qed.

Lemma finres_step s k f r st1 s1 D t1 res : closed ((k, f) :: r) = Some st1 -> conf s s1 ->
  rep s1 st1 (D ++ [closer f]) (0 :: t1) -> finres s1 st1 (D ++ [closer f]) res -> finres s ((k, f) :: r) D res.
Proof.
  intros Hc Hcf HR (ok & s' & n & st' & t' & E & C & A & R & L & T & Z & O1 & O2).
  pose proof (closed_length _ _ Hc) as HL. cbn [length] in HL.
  assert (Ht : ctext (S n) ((k, f) :: r) = closer f :: ctext n st1) by (cbn [ctext]; now rewrite Hc).
  exists ok, s', (S n), st', t'. rewrite Ht.
  split; [exact E|]. split; [eapply conf_trans; eauto|].
  split. { cbn [close_all]. now rewrite Hc. }
  replace (D ++ closer f :: ctext n st1) with ((D ++ [closer f]) ++ ctext n st1) by (rewrite <- app_assoc; reflexivity).
  split; [exact R|].
  split; [cbn; lia|].
  split.
  { intros _. destruct n as [|n]; [|now apply T]. specialize (Z eq_refl). subst s'.
    destruct HR as (HB & HP & HS & _). destruct R as (RB & _). rewrite RB in HB.
    cbn [ctext] in HB. rewrite app_nil_r in HB. inversion HB as [HB']. apply app_inv_head in HB'. eauto. }
  split; [discriminate|]. split.
  - intros Ho. specialize (O1 Ho). destruct HR as (_ & _ & _ & _ & (W & _)).
    assert (length st1 <> 0%nat) by (destruct st1; [inversion W|cbn; lia]). cbn [length]. lia.
  - intros Ho. destruct (O2 Ho) as (H1 & H2). destruct Hcf as (Hsz & _). split; [cbn [length]; lia|congruence].
Qed.

Lemma finres_stop s st D t : rep s st D t -> (1 < length st)%nat -> length D = s_size s -> finres s st D (Ok (false, s)).
Proof.
  intros HR Hl Hs. exists false, s, 0%nat, st, t. cbn [close_all ctext]. rewrite app_nil_r.
  split; [auto|]. split; [apply conf_refl|]. split; [auto|]. split; [auto|]. split; [auto|].
  split; [congruence|]. split; [auto|]. split; [discriminate|]. intros _. split; [lia|auto].
Qed.

Lemma Finish_loop_ok fuel : forall s st D t, rep s st D t -> (s_depth s < fuel)%nat ->
  finres s st D (Finish_loop fuel s).
Proof.
  induction fuel as [|n IH]; intros s st D t HR Hf; [lia|]. cbn [Finish_loop].
  assert (Hlen : length st = S (s_depth s)) by apply HR.
  destruct (Nat.eqb_spec (s_depth s) 0) as [E|E].
  { exists true, s, 0%nat, st, t. cbn [close_all ctext]. rewrite app_nil_r.
    split; [auto|]. split; [apply conf_refl|]. split; [auto|]. split; [auto|]. split; [auto|].
    split; [congruence|]. split; [auto|]. split; [intros _; lia|discriminate]. }
  destruct st as [|[k f] [|[k0 g] r]]; cbn [length] in Hlen; try lia.
  assert (Hm : mode_at s = Ok (fmode f)) by (eapply abs_mode; apply HR).
  assert (Hfull : (s_size s < length D + 1)%nat -> length D = s_size s).
  { destruct HR as (_ & _ & H1 & H2 & _). destruct t; [congruence|cbn [length] in H1; lia]. }
  rewrite Hm. cbn [bind].
  (* the last step shared by the array and string cases *)
  assert (Hlast : forall s2 k2 f2 r2 D2 t2 okm, rep s2 ((k2, f2) :: r2) D2 t2 -> okm (fmode f2) = true ->
     (s_depth s2 <= n)%nat -> (1 < length ((k2, f2) :: r2))%nat ->
     finres s2 ((k2, f2) :: r2) D2 (let* q := finish_scope okm (closer f2) s2 in
        match q with (false, s3) => Ok (false, s3) | (true, s3) => Finish_loop n s3 end)).
  { intros s2 k2 f2 r2 D2 t2 okm HR2 Hok Hd2 Hl2. destruct r2 as [|[k3 g3] r3]; [cbn in Hl2; lia|].
    destruct (finish_scope_ok s2 k2 f2 k3 g3 r3 D2 t2 okm HR2 Hok) as (v & g' & Hv & Hp & X).
    destruct (Nat.leb_spec (length D2 + 1) (s_size s2)).
    - destruct X as (s3 & t3 & E3 & C3 & R3). rewrite E3. cbn [bind].
      eapply finres_step; [|exact C3|exact R3|].
      + cbn [closed]. rewrite Hv. cbn [placed]. now rewrite Hp.
      + eapply IH; [exact R3|].
        assert (length ((k3, g') :: r3) = S (s_depth s3)) by apply R3.
        assert (length ((k2, f2) :: (k3, g3) :: r3) = S (s_depth s2)) by apply HR2. cbn [length] in *. lia.
    - rewrite X. cbn [bind]. eapply finres_stop; eauto.
      destruct HR2 as (_ & _ & H1 & H2 & _). destruct t2; [congruence|cbn [length] in H1; lia]. }
  destruct f as [v0|fs|vs|w].
  - exfalso. destruct HR as (_ & _ & _ & _ & (W & _)). inversion W; subst. cbn in *. congruence.
  - assert (is_obj (fmode (FObj fs)) = true) as Ho by (destruct fs; reflexivity). rewrite Ho.
    unfold EndObject. change 125 with (closer (FObj fs)).
    destruct (finish_scope_ok s k (FObj fs) k0 g r D t is_obj HR Ho) as (v & g' & Hv & Hp & X).
    destruct (Nat.leb_spec (length D + 1) (s_size s)).
    + destruct X as (s1 & t1 & E1 & C1 & R1). rewrite E1. cbn [bind].
      assert (Hm1 : mode_at s1 = Ok (fmode g')) by (eapply abs_mode; apply R1). rewrite Hm1. cbn [bind].
      assert (Hd1 : (s_depth s1 < n)%nat).
      { assert (length ((k0, g') :: r) = S (s_depth s1)) by apply R1. cbn [length] in *. lia. }
      eapply finres_step; [|exact C1|exact R1|].
      { cbn [closed]. rewrite Hv. cbn [placed]. now rewrite Hp. }
      destruct (is_arr (fmode g')) eqn:Ha.
      * destruct g' as [[|]|[|]|vs'|w]; try discriminate. unfold EndArray. change 93 with (closer (FArr vs')).
        eapply Hlast; [exact R1|exact Ha|lia|].
        destruct r; [|cbn; lia]. exfalso. destruct R1 as (_ & _ & _ & _ & (W & _)). inversion W as [|? ? ? W1]. inversion W1.
      * assert (is_str (fmode g') = false) as Hs.
        { destruct g as [[|]|[|]|[|]|w], k; cbn in Hp; try discriminate; inversion Hp; reflexivity. }
        rewrite Hs. cbn [bind]. eapply IH; [exact R1|exact Hd1].
    + rewrite X. cbn [bind]. eapply finres_stop; eauto. cbn; lia.
  - assert (is_obj (fmode (FArr vs)) = false) as -> by (destruct vs; reflexivity). cbn [bind].
    rewrite Hm. cbn [bind]. assert (is_arr (fmode (FArr vs)) = true) as Ha by (destruct vs; reflexivity). rewrite Ha.
    unfold EndArray. change 93 with (closer (FArr vs)). eapply Hlast; [exact HR|exact Ha|lia|cbn; lia].
  - cbn [fmode is_obj bind]. rewrite Hm. cbn [bind is_arr is_str fmode].
    unfold EndStr. change 34 with (closer (FStr w)). eapply Hlast; [exact HR|reflexivity|lia|cbn; lia].
Qed.

Lemma Finish_ok s st D t : rep s st D t -> finres s st D (Finish s).
Proof. intros H. eapply Finish_loop_ok; [exact H|lia]. Qed.

Lemma Finish_room s st D t ok s' : rep s st D t -> Finish s = Ok (ok, s') ->
  (ok = true <-> (length D + (length st - 1) <= s_size s)%nat).
Proof.
  intros HR E. destruct (Finish_ok s st D t HR) as (ok' & s1 & n & st' & t' & E' & C & A & R & L & T & Z & O1 & O2).
  rewrite E in E'. inversion E'; subst ok' s1. destruct R as (_ & _ & R1 & R2 & _). destruct C as (C1 & _).
  rewrite C1, app_length, L in R1. split.
  - intros Ho. specialize (O1 Ho). destruct t'; [congruence|]. cbn [length] in R1. lia.
  - intros H. destruct ok; auto. destruct (O2 eq_refl) as (H1 & H2). rewrite app_length, L in H2. lia.
Qed.

(** ** Text *)

Lemma ws_app a b : ws a -> ws b -> ws (a ++ b).
Proof. intros. apply Forall_app; auto. Qed.
Lemma ws_nil : ws [].
Proof. constructor. Qed.

Lemma unescape_app a : forall sa b sb, unescape a = Some sa -> unescape b = Some sb -> unescape (a ++ b) = Some (sa ++ sb).
Proof.
  remember (length a) as n eqn:En. revert a En.
  induction n as [n IH] using lt_wf_ind. intros a En sa b sb Ha Hb.
  destruct a as [|c a]; cbn [unescape app] in *.
  { inversion Ha. exact Hb. }
  cbn [length] in En.
  destruct (c =? 92).
  - destruct a as [|e a]; [discriminate|]. cbn [app length] in *.
    destruct (if e =? 34 then _ else _) as [x|]; [|discriminate].
    destruct (unescape a) as [y|] eqn:Ey; [|discriminate]. inversion Ha; subst sa.
    rewrite (IH (length a) ltac:(lia) a eq_refl y b sb Ey Hb). reflexivity.
  - destruct (_ || _)%bool; [discriminate|].
    destruct (unescape a) as [y|] eqn:Ey; [|discriminate]. inversion Ha; subst sa.
    rewrite (IH (length a) ltac:(lia) a eq_refl y b sb Ey Hb). reflexivity.
Qed.

Lemma unescape_esc1 esc c : (32 <= c \/ c = 8 \/ c = 9 \/ c = 10 \/ c = 12 \/ c = 13) -> (c = 47 -> esc = true) ->
  unescape (esc1 esc c) = Some [c].
Proof.
  intros H1 H2. unfold esc1.
  destruct (N.eqb_spec c 34); [subst; reflexivity|].
  destruct (N.eqb_spec c 92); [subst; reflexivity|].
  destruct (N.eqb_spec c 47); [subst; rewrite (H2 eq_refl); reflexivity|].
  destruct (N.eqb_spec c 8); [subst; reflexivity|].
  destruct (N.eqb_spec c 12); [subst; reflexivity|].
  destruct (N.eqb_spec c 10); [subst; reflexivity|].
  destruct (N.eqb_spec c 13); [subst; reflexivity|].
  destruct (N.eqb_spec c 9); [subst; reflexivity|].
  cbn [unescape]. destruct (N.eqb_spec c 92); [congruence|].
  destruct (N.ltb_spec c 32); [lia|]. destruct (N.eqb_spec c 34); [congruence|]. reflexivity.
Qed.

Lemma unescape_escs esc v : clean esc v -> unescape (escs esc v) = Some v.
Proof.
  induction v as [|c v IH]; intros H; [reflexivity|].
  change (escs esc (c :: v)) with (esc1 esc c ++ escs esc v). change (c :: v) with ([c] ++ v).
  destruct (Forall_inv H). apply unescape_app; [now apply unescape_esc1|].
  apply IH. eapply Forall_inv_tail; eauto.
Qed.

Lemma unescape_spaces t : Forall (fun c => c = 32) t -> unescape t = Some t.
Proof.
  induction t as [|c t IH]; intros H; [reflexivity|]. cbn [unescape]. rewrite (Forall_inv H). cbn.
  rewrite IH by (eapply Forall_inv_tail; eauto). reflexivity.
Qed.

Lemma literal_escs esc v : clean esc v -> literal v (34 :: escs esc v ++ [34]).
Proof. intros H. exists (escs esc v). split; [reflexivity|now apply unescape_escs]. Qed.

Definition apiece (v : jv) (p : bytes) : Prop := exists a t b, p = a ++ t ++ b /\ ws a /\ ws b /\ denotes v t.
Definition opiece (f : bytes * jv) (p : bytes) : Prop :=
  exists a k b c t d, p = a ++ k ++ b ++ 58 :: c ++ t ++ d
    /\ ws a /\ ws b /\ ws c /\ ws d /\ literal (fst f) k /\ denotes (snd f) t.

(** The text inside an open scope. *)
Definition inner {A} (R : A -> bytes -> Prop) (xs : list A) (t : bytes) : Prop :=
  match xs with [] => ws t | _ => exists ps, Forall2 R xs ps /\ t = join ps end.
Definition ftext (f : frame) (t : bytes) : Prop :=
  match f with
  | FRoot None => ws t
  | FRoot (Some v) => document v t
  | FObj fs => inner opiece fs t
  | FArr vs => inner apiece vs t
  | FStr s => unescape t = Some s
  end.
Fixpoint stext (r : stack) (k : option bytes) (f : frame) (T : bytes) : Prop :=
  match r with
  | [] => ftext f T
  | (k0, g) :: r' =>
      exists T1 t, T = T1 ++ opener f :: t /\ ftext f t
      /\ forall v u g', denotes v u -> place k v g = Some g' -> stext r' k0 g' (T1 ++ u)
  end.

Lemma join_snoc ps q : ps <> [] -> join (ps ++ [q]) = join ps ++ 44 :: q.
Proof.
  induction ps as [|p ps IH]; intros H; [congruence|]. destruct ps as [|p' ps]; [reflexivity|].
  change (join ((p :: p' :: ps) ++ [q])) with (p ++ 44 :: join ((p' :: ps) ++ [q])).
  rewrite IH by discriminate. change (join (p :: p' :: ps)) with (p ++ 44 :: join (p' :: ps)).
  rewrite <- app_assoc. reflexivity.
Qed.
Lemma join_last ps q a : join (ps ++ [q ++ a]) = join (ps ++ [q]) ++ a.
Proof.
  destruct ps as [|p ps]; [reflexivity|]. rewrite !join_snoc by discriminate. rewrite <- app_assoc. reflexivity.
Qed.

Lemma Forall2_snoc_inv {A B} (R : A -> B -> Prop) xs x ps : Forall2 R (xs ++ [x]) ps ->
  exists qs q, ps = qs ++ [q] /\ Forall2 R xs qs /\ R x q.
Proof.
  intros H. apply Forall2_app_inv_l in H as (qs & q1 & H1 & H2 & ->). inversion H2 as [|? q ? q2 Hq Hn]; subst. inversion Hn; subst.
  exists qs, q. auto.
Qed.

(** Blanks after the last piece. *)
Lemma inner_ws {A} (R : A -> bytes -> Prop) xs t w :
  (forall x p, R x p -> R x (p ++ w)) -> ws w -> inner R xs t -> inner R xs (t ++ w).
Proof.
  intros HR Hw. destruct xs as [|x0 xs] using rev_ind; [apply (fun H => ws_app _ _ H Hw)|]. clear IHxs.
  intros H. assert (H' : exists ps, Forall2 R (xs ++ [x0]) ps /\ t = join ps) by (destruct xs; exact H). clear H.
  destruct H' as (ps & H & ->). apply Forall2_snoc_inv in H as (qs & q & -> & H1 & H2).
  assert (G : exists ps, Forall2 R (xs ++ [x0]) ps /\ join (qs ++ [q]) ++ w = join ps).
  { exists (qs ++ [q ++ w]). split; [apply Forall2_app; auto|now rewrite join_last]. }
  destruct xs; exact G.
Qed.

Lemma inner_add {A} (R : A -> bytes -> Prop) xs x t vsp u :
  (forall y p w, R y p -> ws w -> R y (p ++ w)) -> (forall y p w, R y p -> ws w -> R y (w ++ p)) ->
  splitter 44 vsp -> R x u -> inner R xs t ->
  inner R (xs ++ [x]) (t ++ (match xs with [] => [] | _ => vsp end) ++ u).
Proof.
  intros HR1 HR2 (a & b & -> & Ha & Hb) Hx Hi. destruct xs as [|x0 xs].
  - cbn [app inner]. exists [t ++ u]. split; [|reflexivity]. constructor; [|constructor]. apply HR2; auto.
  - pose proof (inner_ws R (x0 :: xs) t a (fun y p H => HR1 y p a H Ha) Ha Hi) as (ps & H1 & H2).
    cbn [app inner]. exists (ps ++ [b ++ u]). split.
    + apply (Forall2_app H1). constructor; [|constructor]. apply HR2; auto.
    + rewrite join_snoc, <- H2.
      * repeat (rewrite <- app_assoc; cbn [app]). reflexivity.
      * intros ->. inversion H1.
Qed.

Lemma apiece_r v p w : apiece v p -> ws w -> apiece v (p ++ w).
Proof.
  intros (a & t & b & -> & Ha & Hb & Ht) Hw. exists a, t, (b ++ w). rewrite <- !app_assoc.
  repeat split; auto. now apply ws_app.
Qed.
Lemma apiece_l v p w : apiece v p -> ws w -> apiece v (w ++ p).
Proof.
  intros (a & t & b & -> & Ha & Hb & Ht) Hw. exists (w ++ a), t, b. rewrite <- !app_assoc.
  repeat split; auto. now apply ws_app.
Qed.
Lemma opiece_r v p w : opiece v p -> ws w -> opiece v (p ++ w).
Proof.
  intros (a & k & b & c & t & d & -> & Ha & Hb & Hc & Hd & Hk & Ht) Hw. exists a, k, b, c, t, (d ++ w).
  split. { repeat (rewrite <- app_assoc; cbn [app]). reflexivity. }
  repeat split; auto. now apply ws_app.
Qed.
Lemma opiece_l v p w : opiece v p -> ws w -> opiece v (w ++ p).
Proof.
  intros (a & k & b & c & t & d & -> & Ha & Hb & Hc & Hd & Hk & Ht) Hw. exists (w ++ a), k, b, c, t, d.
  split. { repeat (rewrite <- app_assoc; cbn [app]). reflexivity. }
  repeat split; auto. now apply ws_app.
Qed.

Definition goodconf (s : ser) : Prop := splitter 58 (s_ksp s) /\ splitter 44 (s_vsp s).

Lemma ftext_add s f key v u f' t : goodconf s -> cleank (s_esc s) key ->
  ftext f t -> denotes v u -> place key v f = Some f' -> ftext f' (t ++ pfx s f key ++ u).
Proof.
  intros (Hk & Hv) Hkey Hf Hd Hp. destruct f as [[r|]|fs|vs|w], key as [key|]; cbn in Hp; try discriminate; inversion Hp; subst f'; clear Hp.
  - cbn [pfx sepb app ftext] in *. exists t, u, []. rewrite app_nil_r. repeat split; auto. constructor.
  - cbn [ftext] in *. unfold pfx.
    assert (O : opiece (key, v) ((34 :: escs (s_esc s) key ++ 34 :: s_ksp s) ++ u)).
    { destruct Hk as (a & b & -> & Ha & Hb).
      exists [], (34 :: escs (s_esc s) key ++ [34]), a, b, u, [].
      split. { cbn [app]. rewrite app_nil_r. repeat (rewrite <- app_assoc; cbn [app]). reflexivity. }
      repeat split; auto; try constructor. now apply literal_escs. }
    pose proof (inner_add opiece fs (key, v) t (s_vsp s) _ opiece_r opiece_l Hv O Hf) as X.
    destruct fs; cbn [sepb app] in *; [|rewrite <- app_assoc]; exact X.
  - cbn [ftext] in *. unfold pfx.
    assert (O : apiece v u). { exists [], u, []. rewrite app_nil_r. repeat split; auto; constructor. }
    pose proof (inner_add apiece vs v t (s_vsp s) _ apiece_r apiece_l Hv O Hf) as X.
    destruct vs; cbn [sepb app] in *; rewrite ?app_nil_r; exact X.
Qed.

Lemma ftext_ws f t w : (forall s, f <> FStr s) -> ws w -> ftext f t -> ftext f (t ++ w).
Proof.
  intros Hf Hw H. destruct f as [[v|]|fs|vs|s]; cbn [ftext] in *.
  - destruct H as (a & u & b & -> & Ha & Hb & Hu). exists a, u, (b ++ w). rewrite <- !app_assoc.
    repeat split; auto. now apply ws_app.
  - now apply ws_app.
  - apply inner_ws; auto. intros; now apply opiece_r.
  - apply inner_ws; auto. intros; now apply apiece_r.
  - now destruct (Hf s).
Qed.

Lemma ftext_close f t v : ftext f t -> frame_value f = Some v -> denotes v (opener f :: t ++ [closer f]).
Proof.
  destruct f as [r|fs|vs|s]; cbn [frame_value opener closer]; intros H E; inversion E; subst v; cbn [ftext] in H.
  - destruct fs as [|f0 fs].
    + now constructor.
    + destruct H as (ps & H & ->). constructor; [discriminate|exact H].
  - destruct vs as [|v0 vs].
    + now constructor.
    + destruct H as (ps & H & ->). constructor; [discriminate|exact H].
  - constructor. exists t. auto.
Qed.

Lemma stext_app r k f f' T w : opener f' = opener f -> (forall t, ftext f t -> ftext f' (t ++ w)) ->
  stext r k f T -> stext r k f' (T ++ w).
Proof.
  intros Ho Hf. destruct r as [|[k0 g] r]; cbn [stext]; [auto|].
  intros (T1 & t & -> & Ht & H). exists T1, (t ++ w). rewrite Ho. split; [|auto].
  rewrite <- app_assoc. reflexivity.
Qed.

Lemma stext_add s r k f key v u f' T : goodconf s -> cleank (s_esc s) key ->
  stext r k f T -> denotes v u -> place key v f = Some f' -> stext r k f' (T ++ pfx s f key ++ u).
Proof.
  intros Hg Hk H Hd Hp. eapply stext_app; [| |exact H].
  - destruct f as [[|]|fs|vs|w], key; cbn in Hp; try discriminate; inversion Hp; reflexivity.
  - intros t Ht. eapply ftext_add; eauto.
Qed.

Lemma stext_open s r k f key new T : goodconf s -> cleank (s_esc s) key ->
  stext r k f T -> ftext new [] -> stext ((k, f) :: r) key new (T ++ pfx s f key ++ [opener new]).
Proof.
  intros Hg Hk H Hn. cbn [stext]. exists (T ++ pfx s f key), []. rewrite <- app_assoc. split; [reflexivity|].
  split; [exact Hn|]. intros v u g' Hd Hp. rewrite <- app_assoc. eapply stext_add; eauto.
Qed.

Lemma stext_close k f k0 g r v g' T : stext ((k0, g) :: r) k f T -> frame_value f = Some v -> place k v g = Some g' ->
  stext r k0 g' (T ++ [closer f]).
Proof.
  intros (T1 & t & -> & Ht & H) Hv Hp. rewrite <- app_assoc. cbn [app]. eapply H; [|exact Hp].
  now apply ftext_close.
Qed.

(** [text st T]: the text for a whole stack. *)
Definition text (st : stack) (T : bytes) : Prop :=
  match st with [] => False | (k, f) :: r => stext r k f T end.

Lemma text_close st st' T : text st T -> closed st = Some st' ->
  exists k f r, st = (k, f) :: r /\ text st' (T ++ [closer f]).
Proof.
  destruct st as [|[k f] [|[k0 g] r]]; cbn [closed]; intros HT H; try discriminate.
  - destruct (frame_value f); discriminate.
  - destruct (frame_value f) as [v|] eqn:Ev; [|discriminate]. cbn [placed] in H.
    destruct (place k v g) as [g'|] eqn:Ep; [|discriminate]. inversion H; subst.
    exists k, f, ((k0, g) :: r). split; [reflexivity|]. cbn [text] in *. eapply stext_close; eauto.
Qed.

Lemma text_close_all n : forall st st' T, text st T -> close_all n st = Some st' -> text st' (T ++ ctext n st).
Proof.
  induction n as [|n IH]; intros st st' T HT H; cbn [close_all ctext] in *.
  - inversion H; subst. now rewrite app_nil_r.
  - destruct (closed st) as [st1|] eqn:E; [|discriminate].
    destruct (text_close _ _ _ HT E) as (k & f & r & -> & HT1).
    specialize (IH _ _ _ HT1 H). rewrite <- app_assoc in IH. exact IH.
Qed.

Lemma text_step s c k0 f r st' u T : goodconf s -> faithful (s_esc s) c -> argok (s_esc s) c ->
  (forall t w, c = CRaw (Some t) -> f = FStr w -> Forall (fun x => x = 32) t) ->
  step c ((k0, f) :: r) = Some st' -> emits s c f u -> text ((k0, f) :: r) T -> text st' (T ++ u).
Proof.
  intros Hg Hfa Har Hraw Hst He HT. cbn [text] in HT.
  assert (Hval : forall k v t, placed k v ((k0, f) :: r) = Some st' -> cleank (s_esc s) k -> denotes v t ->
             text st' (T ++ pfx s f k ++ t)).
  { intros k v t Hp Hk Hd. cbn in Hp. destruct (place k v f) as [f'|] eqn:E; [|discriminate]. inversion Hp; subst.
    cbn [text]. eapply stext_add; eauto. }
  assert (Hopen : forall k new, opened k new ((k0, f) :: r) = Some st' -> cleank (s_esc s) k -> ftext new [] ->
             text st' (T ++ pfx s f k ++ [opener new])).
  { intros k new Hp Hk Hd. unfold opened in Hp. destruct (placed k JNull ((k0, f) :: r)); [|discriminate]. inversion Hp; subst.
    cbn [text]. eapply stext_open; eauto. }
  assert (Hclose : closed ((k0, f) :: r) = Some st' -> text st' (T ++ [closer f])).
  { intros Hp. destruct (text_close ((k0, f) :: r) _ _ HT Hp) as (k1 & f1 & r1 & E & X). inversion E; subst. exact X. }
  assert (Hstr : forall k v, match f with FStr w => Some ((k0, FStr (w ++ v)) :: r) | _ => placed k (JStr v) ((k0, f) :: r) end = Some st' ->
     cleank (s_esc s) k -> clean (s_esc s) v ->
     text st' (T ++ match f with FStr _ => escs (s_esc s) v | _ => pfx s f k ++ 34 :: escs (s_esc s) v ++ [34] end)).
  { intros k v Hp Hk Hv.
    assert (D : denotes (JStr v) (34 :: escs (s_esc s) v ++ [34])) by (constructor; now apply literal_escs).
    destruct f as [r0|fs|vs|w]; try (now eapply Hval; eauto).
    inversion Hp; subst. cbn [text]. eapply (stext_app _ _ (FStr w)); [reflexivity| |exact HT].
    intros t Ht. cbn [ftext] in *. apply unescape_app; auto. now apply unescape_escs. }
  destruct c as [k| |k| |k| |k|k b|k z|k n|k t0|k v|k v|v|]; cbn [step emits value_text faithful] in *.
  - subst u. now apply (Hopen k (FObj [])); [| |constructor].
  - subst u. apply Hclose. destruct f; try discriminate. exact Hst.
  - subst u. now apply (Hopen k (FArr [])); [| |constructor].
  - subst u. apply Hclose. destruct f; try discriminate. exact Hst.
  - subst u. now apply (Hopen k (FStr [])).
  - subst u. apply Hclose. destruct f; try discriminate. exact Hst.
  - destruct He as (k' & P & t & E & HP & ->). inversion E; subst. rewrite HP. eapply Hval; eauto. constructor.
  - destruct He as (k' & P & t & E & HP & ->). inversion E; subst. rewrite HP. eapply Hval; eauto. destruct b; constructor.
  - destruct He as (k' & P & t & E & HP & ->). inversion E; subst. eapply Hval; eauto. now constructor.
  - destruct He as (k' & P & t & E & HP & ->). inversion E; subst. eapply Hval; eauto. now constructor.
  - destruct He as (k' & P & t & E & HP & ->). inversion E; subst. rewrite HP. destruct Hfa. eapply Hval; eauto. now constructor.
  - destruct v as [v|]; [|contradiction]. subst u. destruct Hfa. apply Hstr; auto. 
  - destruct v as [v|]; [|contradiction]. subst u. destruct Hfa. apply Hstr; auto. 
  - destruct v as [v|]; [|contradiction]. subst u.
    assert (W : (forall w, f <> FStr w) -> stext r k0 f (T ++ v)).
    { intros Hf. eapply stext_app; [reflexivity| |exact HT]. intros t. now apply ftext_ws. }
    destruct f as [r0|fs|vs|w]; try (inversion Hst; subst; apply W; discriminate).
    inversion Hst; subst. cbn [text]. eapply (stext_app _ _ (FStr w)); [reflexivity| |exact HT].
    intros t Ht. cbn [ftext] in *. apply unescape_app; auto. apply unescape_spaces. eapply Hraw; eauto.
  - contradiction.
Qed.

(** ** Programs *)

Lemma history_snoc st log st1 : history st log st1 -> forall e st2, history st1 [e] st2 -> history st (log ++ [e]) st2.
Proof.
  induction 1; intros e st3 H3; cbn [app].
  - exact H3.
  - eapply h_ok; eauto.
  - eapply h_no; eauto.
  - eapply h_part; eauto.
Qed.

Definition nostr (st : stack) : Prop := Forall (fun e => forall s, snd e <> FStr s) st.

Lemma nostr_placed k v st st' : nostr st -> placed k v st = Some st' -> nostr st'.
Proof.
  destruct st as [|[k0 f] r]; cbn; [discriminate|]. intros H E.
  destruct (place k v f) as [f'|] eqn:Ep; [|discriminate]. inversion E; subst. constructor; [|exact (Forall_inv_tail H)].
  cbn. destruct f as [[|]|fs|vs|w], k; cbn in Ep; try discriminate; inversion Ep; discriminate.
Qed.
Lemma nostr_closed st st' : nostr st -> closed st = Some st' -> nostr st'.
Proof.
  destruct st as [|[k f] r]; cbn [closed]; [discriminate|]. intros H E. destruct (frame_value f); [|discriminate].
  eapply nostr_placed; [exact (Forall_inv_tail H)|exact E].
Qed.
Lemma nostr_close_all n : forall st st', nostr st -> close_all n st = Some st' -> nostr st'.
Proof.
  induction n as [|n IH]; cbn [close_all]; intros st st' H E; [congruence|].
  destruct (closed st) eqn:Ec; [|discriminate]. eapply IH; [|exact E]. eapply nostr_closed; eauto.
Qed.
Lemma nostr_step c st st' : (forall k, c <> CStartStr k) -> nostr st -> step c st = Some st' -> nostr st'.
Proof.
  intros Hc H E.
  assert (Ho : forall k new, (forall s, new <> FStr s) -> opened k new st = Some st' -> nostr st').
  { unfold opened. intros k new Hn X. destruct (placed k JNull st); [|discriminate]. inversion X; subst. constructor; auto. }
  destruct c; cbn [step] in E; try (eapply nostr_placed; eassumption).
  - eapply Ho; [|exact E]. discriminate.
  - destruct st as [|[k0 f] r]; [discriminate|]. destruct f; try discriminate. eapply nostr_closed; eauto.
  - eapply Ho; [|exact E]. discriminate.
  - destruct st as [|[k0 f] r]; [discriminate|]. destruct f; try discriminate. eapply nostr_closed; eauto.
  - now destruct (Hc k).
  - destruct st as [|[k0 f] r]; [discriminate|]. destruct f; try discriminate. eapply nostr_closed; eauto.
  - destruct v as [v|]; [|discriminate]. destruct st as [|[k0 f] r]; [discriminate|].
    destruct f as [?|?|?|w]; try (eapply nostr_placed; eassumption). now destruct (Forall_inv H w).
  - destruct v as [v|]; [|discriminate]. destruct st as [|[k0 f] r]; [discriminate|].
    destruct f as [?|?|?|w]; try (eapply nostr_placed; eassumption). now destruct (Forall_inv H w).
  - destruct v as [v|]; [|discriminate]. destruct st as [|[k0 f] r]; [inversion E; subst; auto|].
    destruct f as [?|?|?|w]; try congruence. now destruct (Forall_inv H w).
  - eapply nostr_close_all; eauto.
Qed.

Definition lay (acts : list action) (st : stack) : Prop :=
  (forall t, In (Call (CRaw (Some t))) acts -> Forall (fun c => c = 32) t)
  \/ ((forall k, ~ In (Call (CStartStr k)) acts) /\ nostr st).

Lemma layout_lay acts st : layout_ok acts -> nostr st -> lay acts st.
Proof.
  intros H Hn.
  assert (D : (exists k, In (Call (CStartStr k)) acts) \/ (forall k, ~ In (Call (CStartStr k)) acts)).
  { clear. induction acts as [|a acts [[k IH]|IH]]; [right; auto|left; exists k; now right|].
    assert (E : (exists k, a = Call (CStartStr k)) \/ forall k, a <> Call (CStartStr k)).
    { destruct a as [[]| | |]; try (right; discriminate). left; eauto. }
    destruct E as [[k ->]|E]; [left; exists k; now left|]. right. intros k [X|X]; [now apply (E k)|now apply (IH k)]. }
  destruct D as [D|D]; [left; now apply H|right; auto].
Qed.

Lemma lay_cons a acts st : lay (a :: acts) st -> lay acts st.
Proof.
  intros [H|[H Hn]]; [left|right].
  - intros t Ht. apply H. now right.
  - split; auto. intros k Hk. apply (H k). now right.
Qed.

Lemma wfst_close_all n : forall st, wfst st -> length st = S n -> exists r, close_all n st = Some [(None, FRoot r)].
Proof.
  induction n as [|n IH]; intros st W Hl.
  - destruct st as [|[k f] [|]]; cbn in Hl; try lia. inversion W as [v|? ? ? W1]; subst; [exists v; reflexivity|inversion W1].
  - destruct st as [|[k f] [|[k0 g] r]]; cbn in Hl; try lia. destruct (closed_total _ _ _ _ _ W) as (v & g' & Hv & Hp & E).
    cbn [close_all]. rewrite E. apply IH; [|cbn; lia]. inversion W; subst. eapply wfst_placed; eassumption.
Qed.

(** The configuration that stays the same during a program. *)
Definition conf0 (s s' : ser) : Prop :=
  s_esc s' = s_esc s /\ s_ksp s' = s_ksp s /\ s_vsp s' = s_vsp s /\ length (s_modes s') = length (s_modes s).
Lemma conf_conf0 s s' : conf s s' -> conf0 s s'.
Proof. intros (_ & H). exact H. Qed.
Lemma conf0_refl s : conf0 s s.
Proof. repeat split. Qed.
Lemma conf0_trans a b c : conf0 a b -> conf0 b c -> conf0 a c.
Proof. unfold conf0. intros (A1&A2&A3&A4) (B1&B2&B3&B4). repeat split; congruence. Qed.

Lemma taken_rep s st D t : rep s st D t -> taken s = D.
Proof.
  intros (H1 & H2 & _). unfold taken. rewrite H1, H2. rewrite firstn_app, firstn_all, Nat.sub_diag. apply app_nil_r.
Qed.

Lemma rep_newbuffer s st D t b : rep s st D t -> b <> [] -> rep (SetBuffer s b) st [] b.
Proof.
  intros (_ & _ & _ & _ & H) Hb. split; [reflexivity|]. split; [reflexivity|]. split; [|split; [exact Hb|exact H]].
  cbn. destruct b; [congruence|]. cbn. lia.
Qed.
Lemma rep_flush s st D t : rep s st D t -> rep (ResetPos s) st [] (D ++ t).
Proof.
  intros (H1 & H2 & H3 & H4 & H5). split; [exact H1|]. split; [reflexivity|].
  split; [cbn; rewrite app_length; exact H3|]. split; [|exact H5].
  destruct D; cbn; [exact H4|discriminate].
Qed.
Lemma rep_reset s st D t : rep s st D t -> exists s', Reset s = Ok s' /\ rep s' fresh [] (D ++ t) /\ conf0 s s'.
Proof.
  intros (H1 & H2 & H3 & H4 & (W & Hl & junk & Hm)). unfold Reset.
  assert (Hlen : (0 < length (s_modes s))%nat).
  { rewrite Hm, app_length. destruct st as [|[k f] r]; [inversion W|]. cbn [smodes]. rewrite app_length. cbn. lia. }
  rewrite wr_in by exact Hlen. cbn [bind]. eexists. split; [reflexivity|]. split.
  - split; [exact H1|]. split; [reflexivity|]. split; [cbn; rewrite app_length; exact H3|].
    split; [destruct D; cbn; [exact H4|discriminate]|].
    split; [constructor|]. split; [reflexivity|]. cbn. destruct (s_modes s) as [|m0 ms]; [cbn in Hlen; lia|].
    exists ms. reflexivity.
  - repeat split. cbn. now rewrite upd_length.
Qed.

Lemma run_ok acts : forall s log out st D t,
  rep s st D t -> history fresh log st -> good_program (s_esc s) acts ->
  exists log' out' s' st' D' t',
    run acts s log out = Ok (log', out', s') /\ rep s' st' D' t' /\ history fresh log' st' /\ conf0 s s'
    /\ (goodconf s -> (forall c, In (Call c) acts -> faithful (s_esc s) c) -> lay acts st ->
        text st (out ++ D) -> text st' (out' ++ D')).
Proof.
  induction acts as [|a acts IH]; intros s log out st D t HR HH (Hg1 & Hg2).
  { exists log, out, s, st, D, t. cbn [run]. split; [auto|]. split; [auto|]. split; [auto|]. split; [apply conf0_refl|auto]. }
  assert (Hg' : good_program (s_esc s) acts).
  { split; intros; [apply Hg1|apply Hg2]; now right. }
  destruct a as [c| |b|]; cbn [run].
  - assert (Hac : argok (s_esc s) c) by (apply Hg1; now left).
    (* one call *)
    assert (exists ok s1 st1 D1 t1, do_call c s = Ok (ok, s1) /\ rep s1 st1 D1 t1 /\ history st [(c, ok)] st1 /\ conf0 s s1
      /\ (goodconf s -> faithful (s_esc s) c -> lay (Call c :: acts) st -> text st (out ++ D) -> text st1 (out ++ D1) /\ lay acts st1))
      as (ok & s1 & st1 & D1 & t1 & E & R1 & H1 & C1 & T1).
    { destruct (abs_ne s st) as (k0 & f & r & ->); [apply HR|].
      assert (Dec : c = CFinish \/ c <> CFinish) by (destruct c; auto; right; discriminate).
      destruct Dec as [->|Hnf].
      - cbn [do_call]. destruct (Finish_ok s _ D t HR) as (ok & s1 & n & st1 & t1 & E & C & A & R & L & T & Z & O1 & O2).
        exists ok, s1, st1, (D ++ ctext n ((k0, f) :: r)), t1. split; [exact E|]. split; [exact R|].
        split.
        { destruct ok.
          - eapply h_ok; [|constructor]. cbn [step]. rewrite <- (O1 eq_refl). exact A.
          - destruct (O2 eq_refl). eapply h_part; [|exact A|constructor]. auto. }
        split; [now apply conf_conf0|]. intros _ _ HL HT. split.
        + rewrite app_assoc. eapply text_close_all; eauto.
        + apply lay_cons in HL. destruct HL as [HL|[HL Hn]]; [now left|right]. split; auto. eapply nostr_close_all; eauto.
      - destruct (call_outcome c s k0 f r D t HR Hac Hnf) as (ok & s1 & E & X & Y & _).
        destruct ok.
        + destruct (X eq_refl) as (C & st1 & u & t1 & Hst & He & R). exists true, s1, st1, (D ++ u), (0 :: t1).
          split; [exact E|]. split; [exact R|]. split; [eapply h_ok; [exact Hst|constructor]|].
          split; [now apply conf_conf0|]. intros Hgc Hfa HL HT. split.
          * rewrite app_assoc. eapply text_step; eauto.
            intros t0 w -> ->. destruct HL as [HL|[HL Hn]]; [apply HL; now left|].
            now destruct (Forall_inv Hn w).
          * destruct HL as [HL|[HL Hn]]; [left; intros; apply HL; now right|right].
            split; [intros k Hk; apply (HL k); now right|]. eapply nostr_step; [|exact Hn|exact Hst].
            intros k ->. apply (HL k). now left.
        + rewrite (Y eq_refl) in E. exists false, s, ((k0, f) :: r), D, t. split; [exact E|]. split; [exact HR|].
          split; [eapply h_no; [exact Hnf|constructor]|]. split; [apply conf0_refl|].
          intros _ _ HL HT. split; [exact HT|]. eapply lay_cons; eauto. }
    rewrite E. cbn [bind fst snd].
    destruct (IH s1 (log ++ [(c, ok)]) out st1 D1 t1 R1) as (log' & out' & s' & st' & D' & t' & E' & R' & H' & C' & T').
    { eapply history_snoc; eauto. }
    { destruct C1 as (-> & _). exact Hg'. }
    exists log', out', s', st', D', t'. split; [exact E'|]. split; [exact R'|]. split; [exact H'|].
    split; [eapply conf0_trans; eauto|]. intros Hgc Hfa HL HT.
    destruct (T1 Hgc (Hfa c (or_introl eq_refl)) HL HT) as (T2 & L2).
    destruct C1 as (C11 & C12 & C13 & _). apply T'.
    + destruct Hgc. split; congruence.
    + rewrite C11. intros; apply Hfa; now right.
    + exact L2.
    + exact T2.
  - destruct (IH (ResetPos s) log (out ++ taken s) st [] (D ++ t) (rep_flush _ _ _ _ HR) HH Hg')
      as (log' & out' & s' & st' & D' & t' & E' & R' & H' & C' & T').
    exists log', out', s', st', D', t'. split; [exact E'|]. split; [exact R'|]. split; [exact H'|].
    split; [exact C'|]. intros Hgc Hfa HL HT. apply T'; auto.
    + intros; apply Hfa; now right.
    + eapply lay_cons; eauto.
    + rewrite app_nil_r, (taken_rep _ _ _ _ HR). exact HT.
  - destruct (IH (SetBuffer s b) log (out ++ taken s) st [] b) as (log' & out' & s' & st' & D' & t' & E' & R' & H' & C' & T').
    { eapply rep_newbuffer; eauto. apply Hg2. now left. }
    { exact HH. }
    { exact Hg'. }
    exists log', out', s', st', D', t'. split; [exact E'|]. split; [exact R'|]. split; [exact H'|].
    split; [exact C'|]. intros Hgc Hfa HL HT. apply T'; auto.
    + intros; apply Hfa; now right.
    + eapply lay_cons; eauto.
    + rewrite app_nil_r, (taken_rep _ _ _ _ HR). exact HT.
  - destruct (rep_reset _ _ _ _ HR) as (s1 & E1 & R1 & C1). rewrite E1. cbn [bind].
    destruct (IH s1 [] [] fresh [] (D ++ t) R1) as (log' & out' & s' & st' & D' & t' & E' & R' & H' & C' & T').
    { constructor. }
    { destruct C1 as (-> & _). exact Hg'. }
    exists log', out', s', st', D', t'. split; [exact E'|]. split; [exact R'|]. split; [exact H'|].
    split; [eapply conf0_trans; eauto|]. intros Hgc Hfa HL HT.
    destruct C1 as (C11 & C12 & C13 & _). apply T'.
    + destruct Hgc. split; congruence.
    + rewrite C11. intros; apply Hfa; now right.
    + apply lay_cons in HL. destruct HL as [HL|[HL Hn]]; [now left|right]. split; auto.
      repeat constructor. discriminate.
    + cbn. constructor.
Qed.

(** ** The closing text *)
Lemma ctext_closing n : forall st, wfst st -> length st = S n -> ctext n st = closing st.
Proof.
  assert (K : forall n (st st' : stack), wfst st -> length st = S n -> map (fun e => closer (snd e)) st = map (fun e => closer (snd e)) st' -> length st' = S n ->
     ctext n st = map (fun e => closer (snd e)) (firstn n st')).
  { clear. intros n. induction n as [|n IH]; intros st st' W Hl Hm Hl'; [reflexivity|].
    destruct st as [|[k f] [|[k0 g] r]]; cbn in Hl; try lia. destruct st' as [|e' st']; [discriminate|].
    destruct (closed_total _ _ _ _ _ W) as (v & g' & Hv & Hp & E). cbn [ctext]. rewrite E.
    cbn [map snd] in Hm. inversion Hm as [[Q1 Q2]]. cbn [firstn map]. f_equal; [exact Q1|].
    apply IH.
    - inversion W; subst. eapply wfst_placed; eassumption.
    - cbn; lia.
    - rewrite <- Q2. cbn [map snd]. f_equal.
      destruct g as [[|]|fs|vs|w], k; cbn in Hp; try discriminate; inversion Hp; reflexivity.
    - cbn in Hl'. lia. }
  intros st W Hl. unfold closing. rewrite (K n st st W Hl eq_refl Hl). rewrite Hl. replace (S n - 1)%nat with n by lia.
  reflexivity.
Qed.

(** ** The statements used in Prop_Json *)
Lemma ser_rep esc ksp vsp maxdepth junk b : (1 <= maxdepth)%nat -> b <> [] ->
  exists s0, Serializer esc ksp vsp maxdepth junk = Ok s0 /\ rep (SetBuffer s0 b) fresh [] b
   /\ s_esc s0 = esc /\ s_ksp s0 = ksp /\ s_vsp s0 = vsp /\ length (s_modes s0) = maxdepth /\ taken s0 = [].
Proof.
  intros Hd Hb. unfold Serializer. rewrite wr_in by (rewrite repeat_length; lia). cbn [bind].
  eexists. split; [reflexivity|]. split.
  - split; [reflexivity|]. split; [reflexivity|]. split; [destruct b; [congruence|cbn; lia]|]. split; [exact Hb|].
    split; [constructor|]. split; [reflexivity|]. cbn. destruct maxdepth as [|d]; [lia|]. exists (repeat junk d). reflexivity.
  - repeat split. cbn. now rewrite upd_length, repeat_length.
Qed.

Lemma reach esc ksp vsp maxdepth junk b acts s0 :
  (1 <= maxdepth)%nat -> b <> [] -> good_program esc acts ->
  Serializer esc ksp vsp maxdepth junk = Ok s0 ->
  exists log out s st D t,
    run (NewBuffer b :: acts) s0 [] [] = Ok (log, out, s) /\ rep s st D t /\ history fresh log st
    /\ s_esc s = esc /\ s_ksp s = ksp /\ s_vsp s = vsp /\ length (s_modes s) = maxdepth
    /\ (splitter 58 ksp -> splitter 44 vsp -> (forall c, In (Call c) acts -> faithful esc c) -> layout_ok acts ->
        text st (out ++ D)).
Proof.
  intros Hd Hb Hg E0. destruct (ser_rep esc ksp vsp maxdepth junk b Hd Hb) as (s1 & E1 & R & C1 & C2 & C3 & C4 & C5).
  rewrite E0 in E1. inversion E1; subst s1. cbn [run].
  destruct (run_ok acts (SetBuffer s0 b) [] ([] ++ taken s0) fresh [] b R) as (log & out & s & st & D & t & E & R' & H' & C' & T').
  { constructor. }
  { cbn. rewrite C1. exact Hg. }
  exists log, out, s, st, D, t. split; [exact E|]. split; [exact R'|]. split; [exact H'|].
  destruct C' as (Q1 & Q2 & Q3 & Q4). cbn in Q1, Q2, Q3, Q4.
  split; [congruence|]. split; [congruence|]. split; [congruence|]. split; [congruence|].
  intros Hk Hv Hfa HL. apply T'.
  - split; cbn; congruence.
  - cbn. rewrite C1. exact Hfa.
  - apply layout_lay; [exact HL|]. repeat constructor. discriminate.
  - rewrite C5. cbn. constructor.
Qed.

Lemma run_cons_nb b acts s0 log out s' : run (NewBuffer b :: acts) s0 [] [] = Ok (log, out, s') ->
  run acts (SetBuffer s0 b) [] ([] ++ taken s0) = Ok (log, out, s').
Proof. exact (fun H => H). Qed.

(** How deep the scopes are. *)
Lemma rep_depth s st D t : rep s st D t -> (length st <= length (s_modes s))%nat /\ length st = S (s_depth s).
Proof.
  intros (_ & _ & _ & _ & (W & Hl & junk & Hm)). split; [|exact Hl]. rewrite Hm, app_length.
  destruct st as [|[k f] r]; [cbn; lia|]. cbn [smodes length]. rewrite app_length, below_length. cbn. lia.
Qed.

Lemma accept_exact s st D t c : rep s st D t -> argok (s_esc s) c ->
  exists ok s', do_call c s = Ok (ok, s') /\
  (ok = true <-> step c st <> None /\ (opens c = true -> length st < length (s_modes s))%nat
        /\ exists n, cost (s_esc s) (s_ksp s) (s_vsp s) c st n /\ (length D + n <= s_size s)%nat).
Proof.
  intros HR Ha. destruct (abs_ne s st) as (k0 & f & r & ->); [apply HR|].
  assert (Dec : c = CFinish \/ c <> CFinish) by (destruct c; auto; right; discriminate).
  destruct Dec as [->|Hnf].
  - cbn [do_call]. destruct (Finish_ok s _ D t HR) as (ok & s1 & n & st1 & t1 & E & _).
    exists ok, s1. split; [exact E|]. rewrite (Finish_room _ _ _ _ _ _ HR E). cbn [step cost opens].
    destruct (rep_depth _ _ _ _ HR) as (_ & Hl).
    destruct (wfst_close_all (length ((k0, f) :: r) - 1) ((k0, f) :: r)) as (v & Ev); [apply HR|lia|].
    rewrite Ev. split.
    + intros H. split; [discriminate|]. split; [discriminate|]. eexists; split; [reflexivity|exact H].
    + intros (_ & _ & n' & -> & H). exact H.
  - destruct (call_outcome c s k0 f r D t HR Ha Hnf) as (ok & s1 & E & _ & _ & X). exists ok, s1. split; [exact E|exact X].
Qed.

Lemma fail_same s st D t c s' : rep s st D t -> argok (s_esc s) c -> c <> CFinish ->
  do_call c s = Ok (false, s') -> s' = s.
Proof.
  intros HR Ha Hnf E. destruct (abs_ne s st) as (k0 & f & r & ->); [apply HR|].
  destruct (call_outcome c s k0 f r D t HR Ha Hnf) as (ok & s1 & E1 & _ & Y & _).
  rewrite E in E1. inversion E1; subst. now apply Y.
Qed.

Lemma good_app esc a b : good_program esc a -> good_program esc b -> good_program esc (a ++ b).
Proof.
  intros [A1 A2] [B1 B2]. split; intros x H; apply in_app_or in H as [H|H]; auto.
Qed.

Lemma fail_same_n s st D t k v s' : rep s st D t -> do_call (CStrN k v) s = Ok (false, s') -> s' = s.
Proof.
  intros HR E. destruct (abs_ne s st) as (k0 & f & r & ->); [apply HR|].
  pose proof (rep_mk _ _ _ _ HR) as Es. destruct HR as (R1 & R2 & R3 & R4 & R5).
  cbn [do_call] in E. unfold AppendStrN, append_str in E. destruct v as [v|]; [|congruence].
  unfold CalculateStrSizeN in E. rewrite (abs_mode _ _ _ _ R5) in E. cbn [bind] in E.
  set (x := Nat.add _ _) in E. clearbody x.
  destruct (is_str (fmode f)) eqn:Hs; cbn [bind] in E.
  - rewrite (abs_mode _ _ _ _ R5) in E. cbn [bind] in E. destruct (_ && _)%bool; [congruence|].
    destruct (InternalAppendStr v s); cbn in E; congruence.
  - destruct (okplace k f) eqn:Hok.
    + destruct (Nat.le_gt_cases (length D + pneed s f k + x) (s_size s)) as [Hr|Hr].
      * destruct (prefix_accepted s k0 f r D t k x R5 R3 Hok Hr) as (t1 & E1 & L1).
        rewrite <- Es in E1. rewrite E1 in E. cbn [bind] in E.
        assert (Hmb : mode_at (mk (bump s f) (D ++ pfx s f k) t1) = Ok (nmode f)) by exact (bump_mode _ _ _ _ R5).
        rewrite Hmb in E. cbn [bind] in E.
        assert (Hn : is_str (nmode f) = false) by (destruct f; auto; discriminate). rewrite Hn in E. cbn [andb] in E.
        destruct (InternalAppendStr v _); cbn in E; congruence.
      * pose proof (prefix_refused s k0 f r D t k x R5 R3 (or_intror Hr)) as E1.
        rewrite <- Es in E1. rewrite E1 in E. cbn [bind] in E. congruence.
    + pose proof (prefix_refused s k0 f r D t k x R5 R3 (or_introl Hok)) as E1.
      rewrite <- Es in E1. rewrite E1 in E. cbn [bind] in E. congruence.
Qed.

Lemma reached_rep esc ksp vsp maxdepth acts log out s : reached esc ksp vsp maxdepth acts log out s ->
  exists st D t, rep s st D t /\ history fresh log st
    /\ s_esc s = esc /\ s_ksp s = ksp /\ s_vsp s = vsp /\ length (s_modes s) = maxdepth
    /\ (splitter 58 ksp -> splitter 44 vsp -> (forall c, In (Call c) acts -> faithful esc c) -> layout_ok acts ->
        text st (out ++ D)).
Proof.
  intros (junk & s0 & b & Hd & Hb & Hg & E0 & E).
  destruct (reach esc ksp vsp maxdepth junk b acts s0 Hd Hb Hg E0) as (log' & out' & s' & st & D & t & E' & X).
  rewrite E in E'. inversion E'; subst. exists st, D, t. exact X.
Qed.

Lemma history_snoc_inv st log c ok st2 : history st (log ++ [(c, ok)]) st2 ->
  exists st1, history st log st1 /\ history st1 [(c, ok)] st2.
Proof.
  revert st. induction log as [|[c0 ok0] log IH]; intros st H; cbn [app] in H.
  - exists st. split; [constructor|exact H].
  - inversion H; subst.
    + destruct (IH _ H6) as (s1 & A & B). exists s1. split; [eapply h_ok; eauto|exact B].
    + destruct (IH _ H6) as (s1 & A & B). exists s1. split; [eapply h_no; eauto|exact B].
    + destruct (IH _ H7) as (s1 & A & B). exists s1. split; [eapply h_part; eauto|exact B].
Qed.

Lemma close_all_length n : forall st st', close_all n st = Some st' -> length st = (n + length st')%nat.
Proof.
  induction n as [|n IH]; intros st st' H; cbn [close_all] in H; [inversion H; reflexivity|].
  destruct (closed st) as [st1|] eqn:E; [|discriminate]. rewrite (closed_length _ _ E), (IH _ _ H). reflexivity.
Qed.
