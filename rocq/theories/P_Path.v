(** Proofs about file names and paths. *)
From Verif Require Import Base S_Utf8 M_Utf8 P_Utf8 S_Path M_Path P_MixedVar P_AppInfo.
From Verif Require Prop_Utf8.
Open Scope N_scope.

(** ** Platform file names *)
Lemma gpf_loop_good sgn t : Forall (fun c => bad_char sgn c = false) t -> forall p q,
  gpf_loop sgn (length t) (p ++ t ++ q) (length p) = Ok (p ++ unix t ++ q, true).
Proof.
  induction t as [|c t IH]; intros F p q; [reflexivity|]. cbn [length gpf_loop app].
  rewrite (rd_in _ _ 0) by (rewrite app_length; cbn; lia). rewrite app_nth2, Nat.sub_diag by lia. cbn [nth bind].
  rewrite (Forall_inv F). specialize (IH (Forall_inv_tail F)).
  unfold unix. cbn [map]. fold (unix t). destruct (c =? 92).
  - rewrite wr_mid. cbn [bind]. specialize (IH (p ++ [slash]) q). rewrite app_length in IH. cbn [length] in IH.
    rewrite Nat.add_1_r, <- !app_assoc in IH. cbn [app] in IH. rewrite IH. reflexivity.
  - cbn [bind]. specialize (IH (p ++ [c]) q). rewrite app_length in IH. cbn [length] in IH.
    rewrite Nat.add_1_r, <- !app_assoc in IH. cbn [app] in IH. rewrite IH. reflexivity.
Qed.

Lemma gpf_loop_bad sgn t : Exists (fun c => bad_char sgn c = true) t -> forall p q,
  exists b, gpf_loop sgn (length t) (p ++ t ++ q) (length p) = Ok (b, false).
Proof.
  induction t as [|c t IH]; intros F p q; [inversion F|]. cbn [length gpf_loop app].
  rewrite (rd_in _ _ 0) by (rewrite app_length; cbn; lia). rewrite app_nth2, Nat.sub_diag by lia. cbn [nth bind].
  destruct (bad_char sgn c) eqn:Eb; [eexists; reflexivity|].
  assert (F' : Exists (fun c => bad_char sgn c = true) t) by (inversion F; [congruence|assumption]). specialize (IH F').
  destruct (c =? 92).
  - rewrite wr_mid. cbn [bind]. specialize (IH (p ++ [slash]) q). rewrite app_length in IH. cbn [length] in IH.
    rewrite Nat.add_1_r, <- !app_assoc in IH. exact IH.
  - cbn [bind]. specialize (IH (p ++ [c]) q). rewrite app_length in IH. cbn [length] in IH.
    rewrite Nat.add_1_r, <- !app_assoc in IH. exact IH.
Qed.

Lemma gpf_good sgn b name : wf_utf8 (name ++ [0]) -> Forall (fun c => c <> 0) name -> name <> [] ->
  Forall (fun c => bad_char sgn c = false) name -> (length name < length b)%nat ->
  GetPlatformFilename sgn b name = Ok (unix name ++ 0 :: skipn (S (length name)) b, true).
Proof.
  intros W Z Hne G L. unfold GetPlatformFilename. destruct (Nat.ltb_spec (length b) (length name + 1)) as [X|_]; [lia|].
  destruct (Prop_Utf8.C13_wellformed_unchanged (name ++ [0]) b (length b) W) as [lp E]; [rewrite app_length; cbn; lia|].
  match goal with |- context [bind ?e _] => replace e with (Ok (Some (Prop_Utf8.stored b (name ++ [0])), length (name ++ [0]), lp)) by (symmetry; exact E) end.
  cbn [bind]. unfold Prop_Utf8.stored. rewrite <- app_assoc. cbn [app]. rewrite cstr_app by exact Z. cbn [bind].
  destruct (Nat.eqb_spec (length name) 0) as [X|_]; [destruct name; [congruence|discriminate]|].
  destruct (list_eq_dec N.eq_dec name name) as [_|X]; [|congruence]. cbn [orb negb].
  pose proof (gpf_loop_good sgn name G [] (0 :: skipn (length (name ++ [0])) b)) as Lp. cbn [app length] in Lp.
  rewrite Lp. rewrite app_length. cbn [length]. rewrite Nat.add_1_r. reflexivity.
Qed.

(** The converted text always ends in the terminator. *)
Lemma pattern_length n cp s : pattern n cp s -> length s = n /\ (length (enc8 cp) <= n)%nat.
Proof.
  unfold pattern, enc8. destruct n as [|[|[|[|[|n]]]]]; intros H; try contradiction; destruct H as [H ->]; (split; [reflexivity|]).
  - destruct (N.ltb_spec cp 128); [cbn; lia|]. change (2 ^ 7) with 128 in H. lia.
  - destruct (N.ltb_spec cp 128); [cbn; lia|]. destruct (N.ltb_spec cp 2048); [cbn; lia|]. change (2 ^ 11) with 2048 in H. lia.
  - destruct (N.ltb_spec cp 128); [cbn; lia|]. destruct (N.ltb_spec cp 2048); [cbn; lia|].
    destruct (N.ltb_spec cp 65536); [cbn; lia|]. change (2 ^ 16) with 65536 in H. lia.
  - destruct (N.ltb_spec cp 128); [cbn; lia|]. destruct (N.ltb_spec cp 2048); [cbn; lia|].
    destruct (N.ltb_spec cp 65536); cbn; lia.
Qed.

Lemma pattern_last_zero n cp s t : pattern n cp (s ++ [t]) -> t = 0 -> s = [] /\ cp = 0.
Proof.
  intros P ->. unfold pattern in P. destruct n as [|[|[|[|[|n]]]]]; try contradiction; destruct P as [P E];
    apply (f_equal (@rev N)) in E; rewrite rev_app_distr in E; cbn [rev app] in E; injection E as E1 E2.
  - split; [|congruence]. apply (f_equal (@length N)) in E2. rewrite rev_length in E2. destruct s; [reflexivity|discriminate].
  - exfalso. clear - E1. destruct (cp mod 64); discriminate E1.
  - exfalso. clear - E1. destruct (cp mod 64); discriminate E1.
  - exfalso. clear - E1. destruct (cp mod 64); discriminate E1.
Qed.

Lemma scan8_nil cps : scan8 [] cps -> cps = [].
Proof.
  intro H. inversion H as [|n cp s r c P _ E|]; [reflexivity|]. exfalso.
  destruct (pattern_length _ _ _ P) as [L _]. apply app_eq_nil in E. destruct E as [-> _]. cbn in L. subst n. exact P.
Qed.

Lemma scan8_zero src cps : scan8 src cps -> forall name, src = name ++ [0] ->
  exists c0, cps = c0 ++ [0] /\ (length (text enc8 c0) <= length name)%nat.
Proof.
  induction 1 as [|n cp s r cps P Hr IH|b r cps Hno Hr IH]; intros name E.
  - destruct name; discriminate.
  - destruct (pattern_length _ _ _ P) as [Ls Le].
    destruct r as [|x r].
    + rewrite app_nil_r in E. subst s. destruct (pattern_last_zero _ _ _ _ P eq_refl) as [-> ->].
      apply scan8_nil in Hr. subst cps. exists []. split; [reflexivity|cbn; lia].
    + destruct (exists_last (l := x :: r)) as (r0 & z & Er); [discriminate|]. rewrite Er, app_assoc in E.
      apply app_inj_tail in E. destruct E as [<- ->].
      destruct (IH r0 Er) as (c0 & -> & Hl). exists (cp :: c0). split; [reflexivity|].
      unfold text in *. cbn [map concat]. rewrite !app_length. lia.
  - destruct name as [|y name].
    + exfalso. cbn in E. injection E as -> ->. apply (Hno 1%nat 0 [0] []); [reflexivity|]. split; [reflexivity|reflexivity].
    + cbn in E. injection E as -> ->. destruct (IH name eq_refl) as (c0 & -> & Hl). exists c0. split; [reflexivity|]. cbn. lia.
Qed.

Lemma keeps_zero cap : forall cps out o, keeps enc8 (Some cap) out (cps ++ [0]) o ->
  (length out + length (text enc8 cps) < cap)%nat -> exists o0, o = o0 ++ [0].
Proof.
  induction cps as [|c cps IH]; intros out o K L; cbn [app] in K.
  - inversion K as [|? ? ? ? Ha K2|? ? ? ? Hn K2]; subst.
    + inversion K2; subst. exists out. reflexivity.
    + exfalso. apply Hn. split; [|split].
      * unfold allowed. split; [lia|]. split; [lia|]. split; [lia|]. reflexivity.
      * intros _ H. unfold combining in H. lia.
      * cbn in *. lia.
  - unfold text in L. cbn [map concat] in L. fold (text enc8 cps) in L. rewrite app_length in L.
    inversion K as [|? ? ? ? Ha K2|? ? ? ? Hn K2]; subst.
    + apply (IH _ _ K2). rewrite app_length. lia.
    + apply (IH _ _ K2). lia.
Qed.

Lemma gpf_bad sgn b name : byteList name -> Exists (fun c => bad_char sgn c = true) name ->
  exists b', GetPlatformFilename sgn b name = Ok (b', false).
Proof.
  intros B X. unfold GetPlatformFilename. destruct (Nat.ltb_spec (length b) (length name + 1)) as [_|L]; [eexists; reflexivity|].
  assert (B0 : byteList (name ++ [0])) by (apply Forall_app; split; [exact B|constructor; [reflexivity|constructor]]).
  destruct (scan8_exists _ B0) as [cps Hs].
  destruct (Prop_Utf8.C12_output_exact Wd1 (name ++ [0]) cps b (length b) (conj B0 Hs) (le_n _)) as (o & lp & E & K).
  match goal with |- context [bind ?e _] => replace e with (Ok (Some (Prop_Utf8.stored b o), length o, lp)) by (symmetry; exact E) end.
  cbn [bind]. destruct (scan8_zero _ _ Hs name eq_refl) as (c0 & -> & Hl).
  destruct (keeps_zero _ _ _ _ K) as [o0 ->]; [cbn; lia|]. unfold Prop_Utf8.stored. rewrite <- app_assoc. cbn [app].
  assert (Hc : forall l q, exists s, cstr (l ++ 0 :: q) = Ok s /\ exists q', l ++ 0 :: q = s ++ 0 :: q').
  { induction l as [|c l IH]; intro q; cbn [app cstr].
    - exists []. split; [reflexivity|]. exists q. reflexivity.
    - destruct (N.eqb_spec c 0) as [->|_]; [exists []; split; [reflexivity|]; eexists; reflexivity|].
      destruct (IH q) as (s & E1 & q' & E2). exists (c :: s). rewrite E1. split; [reflexivity|]. exists q'. rewrite E2. reflexivity. }
  destruct (Hc o0 (skipn (length (o0 ++ [0])) b)) as (s & E1 & q' & E2). rewrite E1. cbn [bind].
  destruct (length s =? 0)%nat; cbn [orb]; [eexists; reflexivity|].
  destruct (list_eq_dec N.eq_dec s name) as [->|_]; cbn [negb]; [|eexists; reflexivity].
  rewrite E2. exact (gpf_loop_bad sgn name X [] (0 :: q')).
Qed.

Lemma gpf_short sgn b name : (length b <= length name)%nat \/ name = [] -> byteList name ->
  exists b', GetPlatformFilename sgn b name = Ok (b', false).
Proof.
  intros H B. unfold GetPlatformFilename. destruct (Nat.ltb_spec (length b) (length name + 1)) as [_|L]; [eexists; reflexivity|].
  destruct H as [H| ->]; [lia|]. cbn [length] in *. destruct b as [|x b]; [cbn in L; lia|].
  destruct (Prop_Utf8.C13_wellformed_unchanged [0] (x :: b) (length (x :: b))) as [lp E].
  { exists [0]. split; [|reflexivity]. split; [constructor; [|constructor]|].
    - unfold allowed. split; [lia|]. split; [lia|]. split; [lia|]. reflexivity.
    - unfold combining. lia. }
  { cbn. lia. }
  cbn [app]. match goal with |- context [bind ?e _] => replace e with (Ok (Some (Prop_Utf8.stored (x :: b) [0]), length [0], lp)) by (symmetry; exact E) end.
  cbn. eexists. reflexivity.
Qed.

Lemma plain_good sgn c : plain c -> bad_char sgn c = false.
Proof. unfold plain, bad_char. intro H. destruct sgn; lia. Qed.

Lemma plain_wf name : Forall plain name -> wf_utf8 (name ++ [0]).
Proof.
  intro F. exists (name ++ [0]). split.
  - split.
    + apply Forall_app. split; [|constructor; [|constructor]].
      * eapply Forall_impl; [|exact F]. intros c Hc. unfold plain in Hc. unfold allowed. split; [lia|]. split; [lia|]. split; [lia|].
        rewrite N.mod_small; lia.
      * unfold allowed. split; [lia|]. split; [lia|]. split; [lia|]. reflexivity.
    + destruct name as [|c name]; cbn [app]; [unfold combining; lia|]. apply Forall_inv in F. unfold plain in F. unfold combining. lia.
  - unfold text. induction name as [|c name IH]; [reflexivity|]. cbn [app map concat]. rewrite <- IH by exact (Forall_inv_tail F).
    apply Forall_inv in F. unfold enc8, plain in *. destruct (N.ltb_spec c 128); [reflexivity|lia].
Qed.

Lemma gpf_plain sgn b name : Forall plain name -> name <> [] -> (length name < length b)%nat ->
  GetPlatformFilename sgn b name = Ok (unix name ++ 0 :: skipn (S (length name)) b, true).
Proof.
  intros F Hne L. apply gpf_good; [apply plain_wf; exact F| |exact Hne| |exact L].
  - eapply Forall_impl; [|exact F]. intros c Hc. unfold plain in Hc. lia.
  - eapply Forall_impl; [|exact F]. intros c Hc. apply plain_good. exact Hc.
Qed.

(** ** Components *)
Definition noslash (w : bytes) : Prop := ~ In 47 w.
Definition nonempty (c : bytes) : bool := match c with [] => false | _ => true end.
Definition comps (s : bytes) : list bytes := filter nonempty (split s).
Definition ends (u : bytes) : Prop := u = [] \/ exists v, u = v ++ [47].

Lemma split_ne s : split s <> [].
Proof. destruct s as [|c s]; cbn; [discriminate|]. destruct (c =? 47); [discriminate|]. destruct (split s); discriminate. Qed.

Lemma split_slash r : split (47 :: r) = [] :: split r.
Proof. reflexivity. Qed.

Lemma split_char c r : c <> 47 -> split (c :: r) = (c :: hd [] (split r)) :: tl (split r).
Proof.
  intro H. cbn [split]. destruct (N.eqb_spec c 47); [congruence|]. pose proof (split_ne r).
  destruct (split r); [congruence|reflexivity].
Qed.

Lemma split_word w r : noslash w -> split (w ++ 47 :: r) = w :: split r.
Proof.
  induction w as [|c w IH]; intro H; [reflexivity|]. cbn [app]. rewrite split_char by (intro; apply H; left; congruence).
  rewrite IH by (intro X; apply H; right; exact X). reflexivity.
Qed.

Lemma split_one w : noslash w -> split w = [w].
Proof.
  induction w as [|c w IH]; intro H; [reflexivity|]. rewrite split_char by (intro; apply H; left; congruence).
  rewrite IH by (intro X; apply H; right; exact X). reflexivity.
Qed.

Lemma split_app a r : split (a ++ 47 :: r) = split a ++ split r.
Proof.
  induction a as [|c a IH]; [reflexivity|]. cbn [app]. destruct (N.eq_dec c 47) as [->|H].
  - rewrite !split_slash, IH. reflexivity.
  - rewrite !split_char by exact H. rewrite IH. pose proof (split_ne a). destruct (split a); [congruence|reflexivity].
Qed.

Lemma split_noslash s : Forall noslash (split s).
Proof.
  induction s as [|c s IH]; [constructor; [intros []|constructor]|]. destruct (N.eq_dec c 47) as [->|H].
  - rewrite split_slash. constructor; [intros []|exact IH].
  - rewrite split_char by exact H. pose proof (split_ne s). destruct (split s) as [|h t]; [congruence|].
    constructor; [|exact (Forall_inv_tail IH)]. cbn. intros [X|X]; [congruence|]. exact (Forall_inv IH X).
Qed.

Lemma comps_app a r : comps (a ++ 47 :: r) = comps a ++ comps r.
Proof. unfold comps. rewrite split_app. apply filter_app. Qed.

Lemma comps_slash a : comps (a ++ [47]) = comps a.
Proof. rewrite comps_app. cbn. apply app_nil_r. Qed.

Lemma comps_word u w : ends u -> noslash w -> comps (u ++ w) = comps u ++ (if nonempty w then [w] else []).
Proof.
  intros [-> | (v & ->)] H.
  - cbn [app]. unfold comps. rewrite split_one by exact H. cbn. destruct (nonempty w); reflexivity.
  - rewrite <- app_assoc. cbn [app]. rewrite comps_app, comps_slash. f_equal. unfold comps. rewrite split_one by exact H. cbn.
    destruct (nonempty w); reflexivity.
Qed.

Lemma comps_slashes a k : comps (a ++ repeat 47 k) = comps a.
Proof.
  revert a. induction k as [|k IH]; intro a; [cbn; rewrite app_nil_r; reflexivity|]. cbn [repeat].
  replace (a ++ 47 :: repeat 47 k) with ((a ++ [47]) ++ repeat 47 k) by (rewrite <- app_assoc; reflexivity).
  rewrite IH. apply comps_slash.
Qed.

Lemma ends_cut s : exists u w, s = u ++ w /\ ends u /\ noslash w.
Proof.
  induction s as [|c s IH] using rev_ind; [exists [], []; split; [reflexivity|]; split; [left; reflexivity|intros []]|].
  destruct (N.eq_dec c 47) as [->|H].
  - exists (s ++ [47]), []. rewrite app_nil_r. split; [reflexivity|]. split; [right; exists s; reflexivity|intros []].
  - destruct IH as (u & w & -> & U & W). exists u, (w ++ [c]). rewrite app_assoc. split; [reflexivity|]. split; [exact U|].
    intro X. apply in_app_or in X. destruct X as [X|[X|[]]]; [exact (W X)|congruence].
Qed.

(** ** Resolution *)
Definition push (st : list bytes) (c : bytes) : list bytes := st ++ (if nonempty c then [c] else []).

Lemma resolve_proper st c r : proper c -> resolve st (c :: r) = resolve (push st c) r.
Proof.
  intros [P1 P2]. cbn [resolve]. unfold push. destruct (list_eq_dec N.eq_dec c []) as [->|H]; [cbn; rewrite app_nil_r; reflexivity|].
  destruct (list_eq_dec N.eq_dec c [46]) as [X|_]; [congruence|]. destruct (list_eq_dec N.eq_dec c [46; 46]) as [X|_]; [congruence|].
  destruct c; [congruence|reflexivity].
Qed.

Lemma resolve_nil st r : resolve st ([] :: r) = resolve st r.
Proof. reflexivity. Qed.
Lemma resolve_dot st r : resolve st ([46] :: r) = resolve st r.
Proof. reflexivity. Qed.
Lemma resolve_up st r : resolve st ([46; 46] :: r) = resolve (removelast st) r.
Proof. reflexivity. Qed.

Lemma resolve_all_proper cs : forall st, Forall proper cs -> resolve st cs = st ++ filter nonempty cs.
Proof.
  induction cs as [|c cs IH]; intros st F; [cbn; rewrite app_nil_r; reflexivity|].
  rewrite resolve_proper by exact (Forall_inv F). rewrite IH by exact (Forall_inv_tail F). unfold push. cbn [filter].
  destruct (nonempty c); rewrite <- ?app_assoc, ?app_nil_r; reflexivity.
Qed.

Definition tidy (c : bytes) : Prop := proper c /\ c <> [] /\ noslash c.

Lemma Forall_removelast {A} (P : A -> Prop) l : Forall P l -> Forall P (removelast l).
Proof.
  induction l as [|x l IH]; intro F; [constructor|]. cbn [removelast]. destruct l; [constructor|].
  constructor; [exact (Forall_inv F)|]. apply IH. exact (Forall_inv_tail F).
Qed.

Lemma resolve_tidy cs : forall st, Forall tidy st -> Forall noslash cs -> Forall tidy (resolve st cs).
Proof.
  induction cs as [|c cs IH]; intros st F G; [exact F|]. cbn [resolve].
  destruct (list_eq_dec N.eq_dec c []) as [_|H1]; [apply IH; [exact F|exact (Forall_inv_tail G)]|].
  destruct (list_eq_dec N.eq_dec c [46]) as [_|H2]; [apply IH; [exact F|exact (Forall_inv_tail G)]|].
  destruct (list_eq_dec N.eq_dec c [46; 46]) as [_|H3]; [apply IH; [apply Forall_removelast; exact F|exact (Forall_inv_tail G)]|].
  apply IH; [|exact (Forall_inv_tail G)]. apply Forall_app. split; [exact F|]. constructor; [|constructor].
  split; [split; assumption|]. split; [exact H1|exact (Forall_inv G)].
Qed.

(** ** Removing dots *)
Fixpoint dropdots (cs : list bytes) : list bytes :=
  match cs with
  | [] => []
  | c :: r => if list_eq_dec N.eq_dec c [46] then (match r with [] => [[]] | _ => dropdots r end) else c :: dropdots r
  end.

Lemma resolve_dropdots cs : forall st, resolve st (dropdots cs) = resolve st cs.
Proof.
  induction cs as [|c cs IH]; intro st; [reflexivity|]. cbn [dropdots].
  destruct (list_eq_dec N.eq_dec c [46]) as [->|H].
  - rewrite resolve_dot. destruct cs; [reflexivity|apply IH].
  - cbn [resolve]. repeat (destruct (list_eq_dec N.eq_dec c _); [apply IH|]). apply IH.
Qed.

Lemma dropdots_no cs : ~ In [46] (dropdots cs).
Proof.
  induction cs as [|c cs IH]; [intros []|]. cbn [dropdots]. destruct (list_eq_dec N.eq_dec c [46]) as [->|H].
  - destruct cs; [intros [X|[]]; discriminate|exact IH].
  - intros [X|X]; [congruence|exact (IH X)].
Qed.

Lemma split_hd_dot s h t : split s = h :: t -> h = [46] -> s = [46] \/ exists r, s = 46 :: 47 :: r.
Proof.
  intros E ->. destruct s as [|c s]; [discriminate|]. destruct (N.eq_dec c 47) as [->|H]; [rewrite split_slash in E; discriminate|].
  rewrite split_char in E by exact H. injection E as -> E _. destruct s as [|c s]; [left; reflexivity|].
  destruct (N.eq_dec c 47) as [->|H2]; [right; eexists; reflexivity|]. rewrite split_char in E by exact H2. discriminate.
Qed.

Lemma remove_dots_eq c a t : remove_dots (c :: a :: t) =
  match t with
  | [] => if (c =? 47) && (a =? 46) then [c] else c :: remove_dots (a :: t)
  | b :: _ => if (c =? 47) && (a =? 46) && (b =? 47) then remove_dots t else c :: remove_dots (a :: t)
  end.
Proof. reflexivity. Qed.

Lemma remove_dots_split n : forall s, (length s <= n)%nat ->
  split (remove_dots s) = hd [] (split s) :: dropdots (tl (split s)).
Proof.
  induction n as [|n IH]; intros s Hl; (destruct s as [|c s1]; [reflexivity|]); [cbn in Hl; lia|]. cbn [length] in Hl.
  destruct (N.eq_dec c 47) as [->|Hc].
  - rewrite split_slash. cbn [hd tl].
    assert (Gen : (forall h t, split s1 = h :: t -> h <> [46]) -> split (47 :: remove_dots s1) = [] :: dropdots (split s1)).
    { intro Hno. rewrite split_slash. f_equal. rewrite IH by lia. pose proof (split_ne s1). destruct (split s1) as [|h t] eqn:E; [congruence|].
      cbn [hd tl dropdots]. destruct (list_eq_dec N.eq_dec h [46]) as [X|_]; [exfalso; exact (Hno h t eq_refl X)|reflexivity]. }
    destruct s1 as [|a t]; [reflexivity|]. rewrite remove_dots_eq. change (47 =? 47) with true. cbn [andb].
    destruct t as [|b t].
    + destruct (N.eqb_spec a 46) as [->|Ha]; [reflexivity|]. apply Gen. intros h t E X.
      destruct (split_hd_dot _ _ _ E X) as [Y|[r Y]]; [injection Y as Y; exact (Ha Y)|discriminate].
    + destruct (N.eqb_spec a 46) as [->|Ha]; cbn [andb].
      * destruct (N.eqb_spec b 47) as [->|Hb].
        -- rewrite IH by (cbn [length] in *; lia). rewrite (split_char 46) by discriminate. rewrite split_slash. cbn [hd tl dropdots].
           destruct (list_eq_dec N.eq_dec [46] [46]) as [_|X]; [|congruence].
           pose proof (split_ne t). destruct (split t); [congruence|]. reflexivity.
        -- apply Gen. intros h t' E X. destruct (split_hd_dot _ _ _ E X) as [Y|[r Y]]; [discriminate|]. injection Y as Y _. exact (Hb Y).
      * apply Gen. intros h t' E X. destruct (split_hd_dot _ _ _ E X) as [Y|[r Y]]; [discriminate|]. injection Y as Y _. exact (Ha Y).
  - assert (E : remove_dots (c :: s1) = c :: remove_dots s1).
    { destruct s1 as [|a t]; [reflexivity|]. rewrite remove_dots_eq.
      assert (X : c =? 47 = false) by (apply N.eqb_neq; exact Hc). rewrite X. cbn [andb]. destruct t; reflexivity. }
    rewrite E, !split_char by exact Hc. rewrite IH by lia. reflexivity.
Qed.

Lemma remove_dots_len n : forall s, (length s <= n)%nat -> (length (remove_dots s) <= length s)%nat.
Proof.
  induction n as [|n IH]; intros s Hl; (destruct s as [|c s1]; [cbn; lia|]); [cbn in Hl; lia|].
  cbn [length] in Hl. destruct s1 as [|a t]; [cbn; lia|]. rewrite remove_dots_eq. cbn [length] in Hl.
  pose proof (IH (a :: t) ltac:(cbn [length]; lia)) as I1. pose proof (IH t ltac:(lia)) as I2. cbn [length] in *.
  destruct t as [|b t]; [destruct (_ && _); cbn [length] in *; lia|]. destruct (_ && _); cbn [length] in *; lia.
Qed.

Lemma remove_dots_hd s : hd 0 (remove_dots s) = hd 0 s.
Proof.
  remember (length s) as n eqn:E. assert (L : (length s <= n)%nat) by lia. clear E. revert s L.
  induction n as [|n IH]; intros s L; (destruct s as [|c s1]; [reflexivity|]); [cbn in L; lia|]. cbn [length] in L.
  destruct s1 as [|a t]; [reflexivity|]. rewrite remove_dots_eq. cbn [hd].
  destruct t as [|b t]; [destruct (_ && _); reflexivity|].
  destruct (N.eqb_spec c 47) as [->|]; [|reflexivity]. destruct (a =? 46); [|reflexivity]. destruct (N.eqb_spec b 47) as [->|]; [|reflexivity].
  cbn [andb]. rewrite IH by (cbn [length] in *; lia). reflexivity.
Qed.

Lemma last_split s : exists w, last (split s) [] = w /\ (s = w \/ exists a, s = a ++ 47 :: w).
Proof.
  destruct (ends_cut s) as (u & w & -> & [-> | (v & ->)] & W).
  - exists w. cbn [app]. rewrite split_one by exact W. split; [reflexivity|left; reflexivity].
  - exists w. rewrite <- app_assoc. cbn [app]. rewrite split_app, (split_one w) by exact W. rewrite last_last.
    split; [reflexivity|]. right. exists v. reflexivity.
Qed.

(** ** Dropping the last component *)
Lemma firstn_S_nth (b : bytes) l : (l < length b)%nat -> firstn (S l) b = firstn l b ++ [nth l b 0].
Proof. revert b. induction l as [|l IH]; intros [|x b] Hl; cbn in *; try lia; [reflexivity|]. f_equal. apply IH. lia. Qed.

Lemma drop_slashes_ok b : forall len, (len <= length b)%nat ->
  exists k, (drop_slashes b len <= len)%nat /\ firstn len b = firstn (drop_slashes b len) b ++ repeat 47 k /\
    (drop_slashes b len = O \/ nth (drop_slashes b len - 1) b 0 <> 47).
Proof.
  induction len as [|l IH]; intro Hl; [exists O; split; [cbn; lia|]; split; [reflexivity|left; reflexivity]|].
  cbn [drop_slashes]. destruct (N.eqb_spec (nth l b 0) slash) as [E|E].
  - destruct IH as (k & I1 & I2 & I3); [lia|]. exists (k + 1)%nat. split; [lia|]. split; [|exact I3].
    rewrite repeat_app, app_assoc, <- I2. cbn [repeat].
    rewrite firstn_S_nth, E by lia. reflexivity.
  - exists O. split; [lia|]. split; [cbn; rewrite app_nil_r; reflexivity|]. right. cbn [Nat.sub]. rewrite Nat.sub_0_r. exact E.
Qed.

Lemma drop_name_ok b : forall len, (len <= length b)%nat ->
  exists w, (drop_name b len <= len)%nat /\ firstn len b = firstn (drop_name b len) b ++ w /\ noslash w /\
    ends (firstn (drop_name b len) b).
Proof.
  induction len as [|l IH]; intro Hl.
  - exists []. cbn. split; [lia|]. split; [reflexivity|]. split; [intros []|left; reflexivity].
  - cbn [drop_name]. destruct (N.eqb_spec (nth l b 0) slash) as [E|E].
    + exists []. split; [lia|]. rewrite app_nil_r. split; [reflexivity|]. split; [intros []|]. right. exists (firstn l b).
      rewrite firstn_S_nth, E by lia. reflexivity.
    + destruct IH as (w & I1 & I2 & I3 & I4); [lia|]. exists (w ++ [nth l b 0]). split; [lia|].
      rewrite firstn_S_nth, I2 by lia. rewrite app_assoc. split; [reflexivity|]. split; [|exact I4].
      intro X. apply in_app_or in X. destruct X as [X|[X|[]]]; [exact (I3 X)|exact (E X)].
Qed.

Lemma drop_ok b len : (len <= length b)%nat ->
  let n := drop_name b (drop_slashes b len) in
  (n <= len)%nat /\ ends (firstn n b) /\ comps (firstn n b) = removelast (comps (firstn len b)).
Proof.
  intro Hl. cbv zeta. destruct (drop_slashes_ok b len Hl) as (k & A1 & A2 & A3).
  set (m := drop_slashes b len) in *. clearbody m.
  destruct (drop_name_ok b m ltac:(lia)) as (w & B1 & B2 & B3 & B4). set (n := drop_name b m) in *. clearbody n.
  split; [lia|]. split; [exact B4|]. rewrite A2, comps_slashes, B2, comps_word by assumption.
  destruct w as [|x w]; cbn [nonempty]; [|rewrite removelast_last; reflexivity].
  rewrite app_nil_r in *. destruct A3 as [-> | A3].
  - assert (n = O) by lia. subst n. reflexivity.
  - destruct B4 as [B4|[v B4]].
    + rewrite B4. reflexivity.
    + exfalso. assert (n = m) by (apply (f_equal (@length N)) in B2; rewrite !firstn_length in B2; lia). subst n.
      destruct m as [|m]; [destruct v; discriminate|]. rewrite firstn_S_nth in B4 by lia. apply app_inj_tail in B4.
      apply A3. cbn [Nat.sub]. rewrite Nat.sub_0_r. exact (proj2 B4).
Qed.

(** ** The main loop *)
Lemma LIM_val : N.of_nat LIM = 8191.
Proof. reflexivity. Qed.
Local Opaque LIM.

Lemma parse_up b len r : parse (47 :: 46 :: 46 :: 47 :: r) b len = parse (47 :: r) b (drop_name b (drop_slashes b len)).
Proof. reflexivity. Qed.

Lemma parse_put c r1 b len : ~ (c = 47 /\ exists r, r1 = 46 :: 46 :: 47 :: r) -> (len < LIM)%nat -> length b = S LIM ->
  parse (c :: r1) b len = parse r1 (firstn len b ++ c :: skipn (S len) b) (S len).
Proof.
  intros H Hl Hb.
  assert (P : (if (LIM <=? len)%nat then Ok None else let* b1 := wr b len c in parse r1 b1 (S len))
              = parse r1 (firstn len b ++ c :: skipn (S len) b) (S len)).
  { destruct (Nat.leb_spec LIM len); [lia|]. rewrite wr_split by lia. reflexivity. }
  cbn [parse]. destruct r1 as [|a [|a2 [|a3 r]]]; [exact P|exact P|exact P|].
  destruct (N.eqb_spec c slash) as [->|]; [|exact P]. destruct (N.eqb_spec a dot) as [->|]; [|exact P].
  destruct (N.eqb_spec a2 dot) as [->|]; [|exact P]. destruct (N.eqb_spec a3 slash) as [->|]; [|exact P].
  exfalso. apply H. split; [reflexivity|]. exists r. reflexivity.
Qed.

Lemma firstn_put (b : bytes) len c : (len < length b)%nat -> firstn (S len) (firstn len b ++ c :: skipn (S len) b) = firstn len b ++ [c].
Proof.
  intro H. rewrite firstn_app, firstn_all2 by (rewrite firstn_length; lia).
  rewrite firstn_length. replace (S len - Nat.min len (length b))%nat with 1%nat by lia. reflexivity.
Qed.

Lemma nth_put (b : bytes) len c i : (len < length b)%nat -> i <> len -> nth i (firstn len b ++ c :: skipn (S len) b) 0 = nth i b 0.
Proof.
  intros H Hi. replace (nth i b 0) with (nth i (firstn len b ++ nth len b 0 :: skipn (S len) b) 0) by (rewrite split_nth by exact H; reflexivity).
  destruct (Nat.lt_ge_cases i len) as [L|L].
  - rewrite !app_nth1 by (rewrite firstn_length; lia). reflexivity.
  - rewrite !app_nth2 by (rewrite firstn_length; lia). rewrite firstn_length.
    replace (i - Nat.min len (length b))%nat with (S (i - len - 1)) by lia. reflexivity.
Qed.

Lemma put_length (b : bytes) len c : (len < length b)%nat -> length (firstn len b ++ c :: skipn (S len) b) = length b.
Proof. intro H. rewrite app_length, firstn_length. cbn [length]. rewrite skipn_length. lia. Qed.

Lemma nth_put_same (b : bytes) len c : (len < length b)%nat -> nth len (firstn len b ++ c :: skipn (S len) b) 0 = c.
Proof.
  intro H. rewrite app_nth2 by (rewrite firstn_length; lia). rewrite firstn_length.
  replace (len - Nat.min len (length b))%nat with O by lia. reflexivity.
Qed.

Lemma noslash_app a b : noslash a -> noslash b -> noslash (a ++ b).
Proof. intros A B X. apply in_app_or in X. destruct X; [exact (A H)|exact (B H)]. Qed.

Lemma split_hd_up s h t : split s = h :: t -> h = [46; 46] -> s = [46; 46] \/ exists r, s = 46 :: 46 :: 47 :: r.
Proof.
  intros E ->. destruct s as [|c s]; [discriminate|]. destruct (N.eq_dec c 47) as [->|H]; [rewrite split_slash in E; discriminate|].
  rewrite split_char in E by exact H. injection E as -> E Et. pose proof (split_ne s). destruct (split s) as [|h2 t2] eqn:E2; [congruence|].
  cbn in E. destruct (split_hd_dot s h2 t2 E2 E) as [-> |(r & ->)]; [left; reflexivity|right; exists r; reflexivity].
Qed.

Lemma parse_ok n : forall r, (length r <= n)%nat -> forall b len u cur,
  length b = S LIM -> (len + length r <= LIM)%nat -> firstn len b = u ++ cur -> ends u -> noslash cur ->
  proper (hd [] (split (cur ++ r))) -> ~ In [46] (tl (split (cur ++ r))) -> last (split (cur ++ r)) [] <> [46; 46] ->
  (len = O -> hd 0 r = 47) -> (len <> O -> nth 0 b 0 = 47) -> nth LIM b 0 <> 47 ->
  exists b' len', parse r b len = Ok (Some (b', len')) /\ length b' = S LIM /\ (len' <= LIM)%nat /\
    comps (firstn len' b') = resolve (comps u) (split (cur ++ r)) /\ len' <> O /\ nth 0 b' 0 = 47 /\ nth LIM b' 0 <> 47.
Proof.
  induction n as [|n IH]; intros r Hn b len u cur Hb Hl Ht Hu Hc P1 P2 P3 Z1 Z2 Z3;
    (destruct r as [|c r1]; [exists b, len; rewrite app_nil_r in *; split; [reflexivity|]; split; [exact Hb|]; split; [cbn in Hl; lia|];
      rewrite Ht, comps_word by assumption; rewrite split_one in * by exact Hc; cbn [hd] in P1;
      split; [rewrite resolve_proper by exact P1; reflexivity|];
      assert (L0 : len <> O) by (intro L0; specialize (Z1 L0); discriminate Z1); split; [exact L0|]; split; [exact (Z2 L0)|exact Z3]|]).
  - cbn in Hn. lia.
  - cbn [length] in Hn, Hl.
    assert (Dec : (c = 47 /\ exists r, r1 = 46 :: 46 :: 47 :: r) \/ ~ (c = 47 /\ exists r, r1 = 46 :: 46 :: 47 :: r)).
    { destruct (N.eq_dec c 47) as [->|X]; [|right; intros [Y _]; exact (X Y)].
      destruct (list_eq_dec N.eq_dec (firstn 3 r1) [46; 46; 47]) as [E|E].
      - left. split; [reflexivity|]. exists (skipn 3 r1). rewrite <- (firstn_skipn 3 r1) at 1. rewrite E. reflexivity.
      - right. intros [_ [r ->]]. apply E. reflexivity. }
    destruct Dec as [[-> [r ->]]|Dec].
    + rewrite parse_up. destruct (drop_ok b len ltac:(lia)) as (D1 & D2 & D3). cbv zeta in *.
      set (m := drop_name b (drop_slashes b len)) in *. clearbody m.
      assert (S1 : split (cur ++ 47 :: 46 :: 46 :: 47 :: r) = cur :: [46; 46] :: split r).
      { rewrite split_word by exact Hc. reflexivity. }
      rewrite S1 in P1, P2, P3. cbn [hd tl] in P1, P2.
      assert (S2 : split ([] ++ 47 :: r) = [] :: split r) by reflexivity.
      destruct (IH (47 :: r)) with (b := b) (len := m) (u := firstn m b) (cur := @nil N) as (b' & len' & E1 & E2 & E3 & E4 & E5);
        [cbn [length] in *; lia|exact Hb|cbn [length] in *; lia|rewrite app_nil_r; reflexivity|exact D2|intros []| | | |reflexivity| |exact Z3|].
      { rewrite S2. split; discriminate. }
      { rewrite S2. cbn [tl]. intro X. apply P2. right. exact X. }
      { rewrite S2. intro X. apply P3. pose proof (split_ne r). destruct (split r); [congruence|exact X]. }
      { intro X. apply Z2. lia. }
      exists b', len'. split; [exact E1|]. split; [exact E2|]. split; [exact E3|]. split; [|exact E5].
      rewrite E4, S2, S1, resolve_nil, resolve_proper, resolve_up, D3, Ht, comps_word by assumption. reflexivity.
    + rewrite parse_put by (assumption || lia).
      set (b1 := firstn len b ++ c :: skipn (S len) b).
      assert (Hb1 : length b1 = S LIM) by (unfold b1; rewrite put_length; lia).
      assert (F1 : firstn (S len) b1 = firstn len b ++ [c]) by (apply firstn_put; lia).
      assert (N1 : nth LIM b1 0 <> 47) by (unfold b1; rewrite nth_put by lia; exact Z3).
      assert (N0 : nth 0 b1 0 = 47).
      { destruct (Nat.eq_dec len 0) as [L|L].
        - subst len. unfold b1. rewrite nth_put_same by lia. exact (Z1 eq_refl).
        - unfold b1. rewrite nth_put by lia. exact (Z2 L). }
      destruct (N.eq_dec c 47) as [->|Hne].
      * assert (S1 : split (cur ++ 47 :: r1) = cur :: split r1) by (apply split_word; exact Hc).
        rewrite S1 in P1, P2, P3. cbn [hd tl] in P1, P2. pose proof (split_ne r1) as Hne1.
        destruct (IH r1) with (b := b1) (len := S len) (u := firstn len b ++ [47]) (cur := @nil N) as (b' & len' & E1 & E2 & E3 & E4 & E5);
          [lia|exact Hb1|lia|rewrite app_nil_r; exact F1|right; exists (firstn len b); reflexivity|intros []| | | |lia|intros _; exact N0|exact N1|].
        { cbn [app]. destruct (split r1) as [|h t] eqn:Es; [congruence|]. cbn [hd]. split.
          - intro X. apply P2. left. exact X.
          - intro X. destruct (split_hd_up _ _ _ Es X) as [-> |[r' ->]].
            + apply P3. cbn in Es. injection Es as <- <-. reflexivity.
            + apply Dec. split; [reflexivity|]. exists r'. reflexivity. }
        { cbn [app]. intro X. apply P2. destruct (split r1); [exact X|right; exact X]. }
        { cbn [app]. intro X. apply P3. destruct (split r1); [congruence|exact X]. }
        exists b', len'. split; [exact E1|]. split; [exact E2|]. split; [exact E3|]. split; [|exact E5].
        rewrite E4, S1. cbn [app]. rewrite comps_slash, resolve_proper, Ht, comps_word by assumption. reflexivity.
      * destruct (IH r1) with (b := b1) (len := S len) (u := u) (cur := cur ++ [c]) as (b' & len' & E1 & E2 & E3 & E4 & E5);
          [lia|exact Hb1|lia|rewrite F1, Ht, app_assoc; reflexivity|exact Hu
          |apply noslash_app; [exact Hc|intros [X|[]]; congruence]| | | |lia|intros _; exact N0|exact N1|];
          rewrite <- ?app_assoc; cbn [app]; [exact P1|exact P2|exact P3|].
        exists b', len'. split; [exact E1|]. split; [exact E2|]. split; [exact E3|]. split; [|exact E5].
        rewrite E4, <- app_assoc. reflexivity.
Qed.

(** ** Copying out *)
Fixpoint squeeze (t : bytes) : bytes :=
  match t with
  | [] => []
  | c :: r => match r with
      | [] => [c]
      | d :: _ => if (c =? 47) && (d =? 47) then squeeze r else c :: squeeze r
      end
  end.

Lemma squeeze_eq c d r : squeeze (c :: d :: r) = if (c =? 47) && (d =? 47) then squeeze (d :: r) else c :: squeeze (d :: r).
Proof. reflexivity. Qed.

Lemma squeeze_char c r : c <> 47 -> squeeze (c :: r) = c :: squeeze r.
Proof. intro H. destruct r as [|d r]; [reflexivity|]. rewrite squeeze_eq. destruct (N.eqb_spec c 47); [congruence|reflexivity]. Qed.

Lemma squeeze_word w r : noslash w -> squeeze (w ++ r) = w ++ squeeze r.
Proof.
  induction w as [|c w IH]; intro H; [reflexivity|]. cbn [app]. rewrite squeeze_char by (intro; apply H; left; congruence).
  rewrite IH by (intro X; apply H; right; exact X). reflexivity.
Qed.

Lemma span s : exists w rest, s = w ++ rest /\ noslash w /\ (rest = [] \/ exists r, rest = 47 :: r).
Proof.
  induction s as [|c s IH]; [exists [], []; split; [reflexivity|]; split; [intros []|left; reflexivity]|].
  destruct (N.eq_dec c 47) as [->|H].
  - exists [], (47 :: s). split; [reflexivity|]. split; [intros []|right; exists s; reflexivity].
  - destruct IH as (w & rest & -> & W & R). exists (c :: w), rest. split; [reflexivity|]. split; [|exact R].
    intros [X|X]; [congruence|exact (W X)].
Qed.

Definition final_slash (t : bytes) : bytes := if last t 0 =? 47 then [47] else [].

Lemma squeeze_ok n : forall t, (length t <= n)%nat -> hd 0 t = 47 -> squeeze t = render (comps t) ++ final_slash t.
Proof.
  induction n as [|n IH]; intros t Hn Hh; (destruct t as [|c t]; [discriminate|]); [cbn in Hn; lia|]. cbn in Hh. subst c. cbn [length] in Hn.
  destruct (span t) as (w & rest & -> & W & R).
  destruct w as [|x w].
  - cbn [app]. destruct R as [-> |[r ->]]; [reflexivity|].
    rewrite squeeze_eq. change (47 =? 47) with true. cbn [andb]. rewrite IH by (reflexivity || (cbn [length app] in *; lia)).
    reflexivity.
  - assert (Hx : x <> 47) by (intro; apply W; left; congruence).
    cbn [app]. rewrite squeeze_eq. destruct (N.eqb_spec x 47); [congruence|]. rewrite andb_false_r.
    change (x :: w ++ rest) with ((x :: w) ++ rest). rewrite squeeze_word by exact W.
    assert (Hc : comps (47 :: (x :: w) ++ rest) = (x :: w) :: comps rest).
    { change (47 :: (x :: w) ++ rest) with ([47] ++ (x :: w) ++ rest). destruct R as [-> |[r ->]].
      - rewrite app_nil_r, comps_word; [reflexivity|right; exists []; reflexivity|exact W].
      - rewrite app_assoc, comps_app, comps_word; [reflexivity|right; exists []; reflexivity|exact W]. }
    rewrite Hc. cbn [render flat_map]. fold (render (comps rest)). cbn [app]. f_equal. f_equal. rewrite <- app_assoc. f_equal.
    destruct R as [-> |[r ->]].
    + cbn. rewrite app_nil_r. unfold final_slash.
      change (47 :: x :: w) with ([47] ++ (x :: w)). 
      destruct (exists_last (l := x :: w)) as (l & z & E); [discriminate|]. rewrite E, app_assoc, last_last.
      destruct (N.eqb_spec z 47) as [->|]; [|reflexivity]. exfalso. apply W. rewrite E. apply in_or_app. right. left. reflexivity.
    + rewrite IH by (reflexivity || (cbn [length app] in *; rewrite app_length in Hn; cbn [length] in Hn; lia)). f_equal. unfold final_slash.
      destruct (exists_last (l := 47 :: r)) as (l & z & E); [discriminate|]. rewrite E.
      change (47 :: x :: w ++ l ++ [z]) with ((47 :: x :: w) ++ l ++ [z]). rewrite app_assoc, !last_last. reflexivity.
Qed.

Lemma skip_slashes_ok b : forall k x, (x + k = length b - 1)%nat -> (x < length b)%nat -> nth (length b - 1) b 0 <> 47 -> forall fuel, (k < fuel)%nat ->
  exists j, skip_slashes fuel b x = Ok (x + j)%nat /\ (x + j < length b)%nat /\
    (forall i, (i < j)%nat -> nth (x + i) b 0 = 47) /\ (j <> O -> nth (x + j) b 0 = 47) /\
    (nth (x + j) b 0 = 47 -> nth (S (x + j)) b 0 <> 47).
Proof.
  induction k as [|k IH]; intros x Hx Hlt Hlast fuel Hf; (destruct fuel as [|fuel]; [lia|]); cbn [skip_slashes];
    rewrite (rd_in b x 0) by lia; cbn [bind]; destruct (N.eqb_spec (nth x b 0) slash) as [E|E].
  - exfalso. apply Hlast. replace (length b - 1)%nat with x by lia. exact E.
  - exists O. rewrite Nat.add_0_r. split; [reflexivity|]. split; [lia|]. split; [intros i Hi; lia|]. split; [intro X; exfalso; exact (X eq_refl)|]. intro X. exfalso. exact (E X).
  - rewrite (rd_in b (S x) 0) by lia. cbn [bind]. destruct (N.eqb_spec (nth (S x) b 0) slash) as [E2|E2].
    + destruct (IH (S x) ltac:(lia) ltac:(lia) Hlast fuel ltac:(lia)) as (j & J1 & J2 & J3 & J4 & J5). exists (S j).
      replace (x + S j)%nat with (S x + j)%nat by lia. split; [exact J1|]. split; [exact J2|]. split; [|split; [|exact J5]].
      * intros [|i] Hi; [rewrite Nat.add_0_r; exact E|]. replace (x + S i)%nat with (S x + i)%nat by lia. apply J3. lia.
      * intros _. destruct (Nat.eq_dec j 0) as [->|Hj]; [rewrite Nat.add_0_r; exact E2|exact (J4 Hj)].
    + exists O. rewrite Nat.add_0_r. split; [reflexivity|]. split; [lia|]. split; [intros i Hi; lia|]. split; [intro X; exfalso; exact (X eq_refl)|]. intros _. exact E2.
  - exists O. rewrite Nat.add_0_r. split; [reflexivity|]. split; [lia|]. split; [intros i Hi; lia|]. split; [intro X; exfalso; exact (X eq_refl)|]. intro X. exfalso. exact (E X).
Qed.

(** The text from position [x] on. *)
Lemma skipn_nth_cons (t : bytes) x : (x < length t)%nat -> skipn x t = nth x t 0 :: skipn (S x) t.
Proof. revert t. induction x as [|x IH]; intros [|c t] H; cbn in *; try lia; [reflexivity|]. apply IH. lia. Qed.

Lemma squeeze_skip t : forall j x, (x + j < length t)%nat -> (forall i, (i <= j)%nat -> nth (x + i) t 0 = 47) ->
  squeeze (skipn x t) = squeeze (skipn (x + j) t).
Proof.
  induction j as [|j IH]; intros x Hx Hi; [rewrite Nat.add_0_r; reflexivity|].
  rewrite (skipn_nth_cons t x) by lia. rewrite (skipn_nth_cons t (S x)) by lia.
  pose proof (Hi O ltac:(lia)) as H0. pose proof (Hi 1%nat ltac:(lia)) as H1. rewrite Nat.add_0_r in H0. rewrite Nat.add_1_r in H1.
  rewrite squeeze_eq, H0, H1. change (47 =? 47) with true. cbn [andb]. rewrite <- H1, <- skipn_nth_cons by lia.
  rewrite (IH (S x)); [f_equal; f_equal; lia|lia|]. intros i Hi2. replace (S x + i)%nat with (x + S i)%nat by lia. apply Hi. lia.
Qed.

Lemma squeeze_all_slash t : forall x, (x < length t)%nat -> (forall i, (x <= i < length t)%nat -> nth i t 0 = 47) -> squeeze (skipn x t) = [47].
Proof.
  intros x Hx Hi. rewrite (squeeze_skip t (length t - 1 - x) x) by (try lia; intros i H; apply Hi; lia).
  replace (x + (length t - 1 - x))%nat with (length t - 1)%nat by lia. rewrite skipn_nth_cons by lia.
  rewrite skipn_all2 by lia. rewrite Hi by lia. reflexivity.
Qed.

Lemma copy_out_ok b len : (len <= length b - 1)%nat -> nth (length b - 1) b 0 <> 47 -> forall n x, (len - x <= n)%nat -> forall fuel out q, (n < fuel)%nat ->
  (length (squeeze (skipn x (firstn len b))) <= length q)%nat ->
  copy_out fuel b len x (out ++ q) (length out) =
  Ok (out ++ squeeze (skipn x (firstn len b)) ++ skipn (length (squeeze (skipn x (firstn len b)))) q,
      (length out + length (squeeze (skipn x (firstn len b))))%nat).
Proof.
  intros Hlen Hlast. set (t := firstn len b). assert (Lt : length t = len) by (unfold t; rewrite firstn_length; lia).
  assert (Nt : forall i, (i < len)%nat -> nth i t 0 = nth i b 0) by (intros i Hi; unfold t; apply nth_firstn; exact Hi).
  assert (Stop : forall x fuel out q, (len <= x)%nat -> (0 < fuel)%nat ->
    copy_out fuel b len x (out ++ q) (length out) = Ok (out ++ squeeze (skipn x t) ++ skipn (length (squeeze (skipn x t))) q, (length out + length (squeeze (skipn x t)))%nat)).
  { intros x fuel out q Hx Hf. destruct fuel; [lia|]. cbn [copy_out]. destruct (Nat.ltb_spec x len); [lia|]. rewrite andb_false_r.
    rewrite skipn_all2 by lia. cbn. rewrite Nat.add_0_r. reflexivity. }
  induction n as [|n IH]; intros x Hx fuel out q Hf Hq; [apply Stop; lia|].
  destruct (Nat.le_gt_cases len x) as [Hge|Hlt]; [apply Stop; lia|].
  destruct fuel as [|fuel]; [lia|]. cbn [copy_out].
  destruct (skip_slashes_ok b (length b - 1 - x) x ltac:(lia) ltac:(lia) Hlast (S (length b)) ltac:(lia)) as (j & J1 & J2 & J3 & J4 & J5).
  assert (Sq : squeeze (skipn x t) = nth (x + j) b 0 :: squeeze (skipn (S (x + j)) t)).
  { destruct (Nat.lt_ge_cases (x + j) len) as [Hj|Hj].
    - assert (E0 : squeeze (skipn x t) = squeeze (skipn (x + j) t)).
      { destruct (Nat.eq_dec j 0) as [->|Hj0]; [rewrite Nat.add_0_r; reflexivity|]. apply squeeze_skip; [lia|].
        intros i Hi. rewrite Nt by lia. destruct (Nat.eq_dec i j) as [->|Hne]; [exact (J4 Hj0)|apply J3; lia]. }
      rewrite E0, (skipn_nth_cons t (x + j)) by lia. rewrite Nt by exact Hj.
      destruct (N.eq_dec (nth (x + j) b 0) 47) as [E|E]; [|apply squeeze_char; exact E].
      destruct (Nat.lt_ge_cases (S (x + j)) len) as [Hj2|Hj2].
      + rewrite (skipn_nth_cons t (S (x + j))) by lia. rewrite squeeze_eq.
        specialize (J5 E). rewrite Nt by exact Hj2. destruct (N.eqb_spec (nth (S (x + j)) b 0) 47); [congruence|]. rewrite andb_false_r. reflexivity.
      + rewrite (skipn_all2 t) by lia. reflexivity.
    - rewrite squeeze_all_slash by (try lia; intros i Hi; rewrite Nt by lia; replace i with (x + (i - x))%nat by lia; apply J3; lia).
      rewrite (skipn_all2 t) by lia. rewrite J4 by lia. reflexivity. }
  rewrite Sq in Hq |- *. cbn [length] in Hq. destruct q as [|y q]; [cbn in Hq; lia|].
  destruct (Nat.ltb_spec (length out) (length (out ++ y :: q))) as [_|X]; [|rewrite app_length in X; cbn in X; lia].
  destruct (Nat.ltb_spec x len) as [_|X]; [|lia]. cbn [andb].
  rewrite J1. cbn [bind]. rewrite (rd_in b _ 0) by exact J2. cbn [bind]. rewrite wr_mid. cbn [bind].
  cbn [length] in Hq. apply le_S_n in Hq. specialize (IH (S (x + j)) ltac:(lia) fuel (out ++ [nth (x + j) b 0]) q ltac:(lia) Hq).
  rewrite app_length in IH. cbn [length] in IH. rewrite Nat.add_1_r, <- !app_assoc in IH. cbn [app] in IH.
  rewrite IH. cbn [length skipn]. do 2 f_equal. lia.
Qed.

(** ** The result *)
Definition clean (s : bytes) : Prop :=
  (forall a r, s <> a ++ 47 :: 46 :: 47 :: r) /\ (forall a r, s <> a ++ 47 :: 46 :: 46 :: 47 :: r).

Lemma rd_at (p x : bytes) k : rd (p ++ x) (length p + k) = rd x k.
Proof. unfold rd. rewrite nth_error_app2 by lia. replace (length p + k - length p)%nat with k by lia. reflexivity. Qed.

Lemma sane_ok s : clean s -> forall p q, sane (length s) (p ++ s ++ 0 :: q) (length p) = Ok true.
Proof.
  induction s as [|c s IH]; intros [C1 C2] p q; [reflexivity|]. cbn [length sane].
  assert (IH' : sane (length s) (p ++ (c :: s) ++ 0 :: q) (S (length p)) = Ok true).
  { specialize (IH ltac:(split; [intros a r E; apply (C1 (c :: a) r); rewrite E; reflexivity|intros a r E; apply (C2 (c :: a) r); rewrite E; reflexivity])
      (p ++ [c]) q). rewrite app_length in IH. cbn [length] in IH. rewrite Nat.add_1_r, <- app_assoc in IH. exact IH. }
  replace (length p) with (length p + 0)%nat at 1 by lia. rewrite !rd_at. cbn [app]. unfold rd at 1. cbn [nth_error bind].
  destruct (N.eqb_spec c slash) as [->|_]; [|exact IH']. destruct s as [|c1 s].
  { cbn. exact IH'. }
  unfold rd at 1. cbn [nth_error bind app]. destruct (N.eqb_spec c1 dot) as [->|_]; [|exact IH']. destruct s as [|c2 s].
  { cbn. exact IH'. }
  unfold rd at 1. cbn [nth_error bind app]. destruct (N.eqb_spec c2 slash) as [->|_].
  { exfalso. exact (C1 [] s eq_refl). }
  destruct (N.eqb_spec c2 dot) as [->|_]; [|exact IH']. destruct s as [|c3 s].
  { cbn. exact IH'. }
  unfold rd at 1. cbn [nth_error bind app]. destruct (N.eqb_spec c3 slash) as [->|_]; [|exact IH'].
  exfalso. exact (C2 [] s eq_refl).
Qed.

Lemma proper_clean s : Forall proper (split s) -> clean s.
Proof.
  intro F. split; intros a r ->; rewrite split_app in F; apply Forall_app in F; destruct F as [_ F].
  - cbn in F. apply Forall_inv in F. destruct F as [F _]. congruence.
  - cbn in F. apply Forall_inv in F. destruct F as [_ F]. congruence.
Qed.

Lemma render_proper st tr : Forall tidy st -> tr = [] \/ tr = [47] -> Forall proper (split (render st ++ tr)).
Proof.
  intros F T. assert (PN : proper []) by (split; discriminate). induction st as [|c st IH].
  - destruct T as [-> | ->]; cbn; [constructor; [exact PN|constructor]|constructor; [exact PN|constructor; [exact PN|constructor]]].
  - specialize (IH (Forall_inv_tail F)). apply Forall_inv in F. destruct F as (P & _ & W).
    cbn [render flat_map]. fold (render st). cbn [app]. rewrite <- app_assoc, split_slash. constructor; [exact PN|].
    assert (R : render st ++ tr = [] \/ exists r, render st ++ tr = 47 :: r).
    { destruct st as [|c2 st]; cbn; [destruct T as [-> | ->]; [left; reflexivity|right; exists []; reflexivity]|right; eexists; reflexivity]. }
    destruct R as [R|[r R]]; rewrite R in *.
    + rewrite app_nil_r, split_one by exact W. constructor; [exact P|constructor].
    + rewrite split_word by exact W. rewrite split_slash in IH. constructor; [exact P|exact (Forall_inv_tail IH)].
Qed.

Lemma render_last st : Forall tidy st -> st <> [] -> exists l z, render st = l ++ [z] /\ z <> 47.
Proof.
  intros F H. destruct (exists_last H) as (l & c & ->). apply Forall_app in F. destruct F as [_ F]. apply Forall_inv in F.
  destruct F as (_ & Hc & W). destruct (exists_last Hc) as (w & z & ->). exists (render l ++ 47 :: w), z.
  unfold render. rewrite flat_map_app. cbn [flat_map]. rewrite app_nil_r, <- app_assoc. split; [reflexivity|].
  intros ->. apply W. apply in_or_app. right. left. reflexivity.
Qed.

Definition ending (trailing : bool) : bytes := if trailing then [47] else [].

Lemma finish_ok b len st result trailing : length b = S LIM -> (len <= LIM)%nat -> nth LIM b 0 <> 47 -> len <> O -> nth 0 b 0 = 47 ->
  comps (firstn len b) = st -> Forall tidy st -> (length (render st ++ ending trailing) < length result)%nat ->
  exists q, M_Path.finish b len result trailing = Ok (render st ++ ending trailing ++ 0 :: q, true) /\
    length (render st ++ ending trailing ++ 0 :: q) = length result.
Proof.
  intros Hb Hl Hz H0 Hh Hst Ht Hcap. set (t := firstn len b) in *.
  assert (Lt : length t = len) by (unfold t; rewrite firstn_length; lia).
  assert (Ht0 : hd 0 t = 47).
  { unfold t. destruct b as [|x b]; [discriminate|]. destruct len; [congruence|]. exact Hh. }
  pose proof (squeeze_ok len t ltac:(lia) Ht0) as Sq. rewrite Hst in Sq.
  assert (Fs : (final_slash t = [47]) \/ (final_slash t = [] /\ st <> [])).
  { unfold final_slash. destruct (N.eqb_spec (last t 0) 47) as [E|E]; [left; reflexivity|right]. split; [reflexivity|].
    intro Hn. apply E. clear - Ht0 Hst Hn. destruct (ends_cut t) as (u & w & -> & U & W).
    rewrite comps_word in Hst by assumption. destruct w as [|x w].
    - destruct U as [-> |[v ->]]; [discriminate|]. rewrite app_nil_r. apply last_last.
    - exfalso. rewrite Hn in Hst. cbn in Hst. destruct (comps u); discriminate. }
  assert (Sq1 : (length (squeeze t) <= length result)%nat /\ squeeze t <> []).
  { rewrite Sq. rewrite app_length in Hcap. split.
    - rewrite app_length. destruct Fs as [-> |[-> _]]; cbn [length]; lia.
    - destruct Fs as [-> |[-> Hs]]; [destruct (render st); discriminate|]. destruct st; [congruence|discriminate]. }
  destruct Sq1 as [Sq1 Sq2]. unfold M_Path.finish.
  pose proof (copy_out_ok b len ltac:(lia) ltac:(rewrite Hb; cbn; rewrite Nat.sub_0_r; exact Hz) len 0 ltac:(lia) (S (length b)) [] result ltac:(lia) Sq1) as CO.
  cbn [skipn app length Nat.add] in CO. fold t in CO. rewrite CO. cbn [bind]. clear CO.
  assert (Hpos : (0 <? length (squeeze t))%nat = true) by (apply Nat.ltb_lt; destruct (squeeze t); [congruence|cbn; lia]).
  rewrite Hpos, andb_true_r.
  set (rest := skipn (length (squeeze t)) result).
  assert (Lr : (length (squeeze t) + length rest = length result)%nat) by (unfold rest; rewrite skipn_length; lia).
  clearbody rest. clear Hpos Sq1 Sq2.
  assert (Rlast : forall (S : bytes) z y, rd ((S ++ [z]) ++ y) (length (S ++ [z]) - 1) = Ok z).
  { intros S z y. rewrite app_length. cbn [length]. replace (length S + 1 - 1)%nat with (length S + 0)%nat by lia.
    rewrite <- app_assoc, rd_at. reflexivity. }
  assert (Done : forall tr rest', length (render st ++ tr ++ rest') = length result -> rest' <> [] -> tr = [] \/ tr = [47] ->
    exists q, (if (length (render st ++ tr ++ rest') <=? length (render st ++ tr))%nat then Ok (render st ++ tr ++ rest', false)
     else let* r3 := wr (render st ++ tr ++ rest') (length (render st ++ tr)) 0 in
          let* ok := sane (length (render st ++ tr)) r3 0 in Ok (r3, ok)) = Ok (render st ++ tr ++ 0 :: q, true) /\
      length (render st ++ tr ++ 0 :: q) = length result).
  { intros tr rest' HL Hne T. destruct rest' as [|y rest']; [congruence|]. exists rest'.
    destruct (Nat.leb_spec (length (render st ++ tr ++ y :: rest')) (length (render st ++ tr))) as [X|_]; [rewrite !app_length in X; cbn in X; lia|].
    rewrite app_assoc, wr_mid. cbn [bind]. split.
    - pose proof (sane_ok (render st ++ tr) (proper_clean _ (render_proper st tr Ht T)) [] rest') as SO. cbn [app length] in SO.
      rewrite SO. cbn [bind]. rewrite <- app_assoc. reflexivity.
    - rewrite app_assoc in *. rewrite app_length in *. cbn [length] in *. exact HL. }
  destruct trailing; cbn [andb negb ending] in *.
  - destruct Fs as [Ef|[Ef Hs]]; rewrite Ef in Sq; rewrite Sq in *.
    + rewrite (Rlast (render st) 47 rest). cbn [bind negb andb N.eqb]. change (47 =? slash) with true. cbn [negb andb].
      cbn [bind]. rewrite <- !app_assoc. apply Done; [|destruct rest; [rewrite !app_length in *; cbn in *; lia|discriminate]|right; reflexivity].
      rewrite !app_length in *. cbn [length] in *. lia.
    + rewrite app_nil_r in *. destruct (render_last st Ht Hs) as (l & z & El & Hz47). rewrite El, (Rlast l z rest), <- El. cbn [bind].
      destruct (N.eqb_spec z slash) as [X|_]; [exfalso; exact (Hz47 X)|]. cbn [negb andb].
      destruct rest as [|y rest]; [rewrite !app_length in *; cbn [length] in *; lia|].
      destruct (Nat.ltb_spec (length (render st)) (length (render st ++ y :: rest))) as [_|X]; [|rewrite app_length in X; cbn in X; lia].
      rewrite wr_mid. cbn [bind]. change (slash :: rest) with ([47] ++ rest).
      replace (S (length (render st))) with (length (render st ++ [47])) by (rewrite app_length; cbn; lia).
      apply Done; [|destruct rest; [rewrite !app_length in *; cbn in *; lia|discriminate]|right; reflexivity].
      rewrite !app_length in *. cbn [length] in *. lia.
  - rewrite app_nil_r in *. cbn [bind]. destruct Fs as [Ef|[Ef Hs]]; rewrite Ef in Sq; rewrite Sq in *.
    + destruct (Nat.ltb_spec 0 (length (render st ++ [47]))) as [_|X]; [|rewrite app_length in X; cbn in X; lia].
      rewrite (Rlast (render st) 47 rest). cbn [bind]. change (47 =? slash) with true. cbv iota.
      replace (length (render st ++ [47%N]) - 1)%nat with (length (render st ++ [])) by (rewrite app_nil_r, app_length; cbn; lia).
      rewrite <- app_assoc. cbn [app]. change (render st ++ 47 :: rest) with (render st ++ [] ++ 47 :: rest).
      destruct (Done [] (47 :: rest)) as (q & E & L); [|discriminate|left; reflexivity|].
      { cbn [app]. rewrite app_length in *. cbn [length] in *. lia. }
      exists q. split; [exact E|exact L].
    + rewrite app_nil_r in *. destruct (render_last st Ht Hs) as (l & z & El & Hz47).
      destruct (Nat.ltb_spec 0 (length (render st))) as [_|X]; [|rewrite El, app_length in X; cbn in X; lia].
      rewrite El, (Rlast l z rest), <- El. cbn [bind].
      destruct (N.eqb_spec z slash) as [X|_]; [exfalso; exact (Hz47 X)|].
      destruct (Done [] rest) as (q & E & L); [cbn [app]; rewrite app_length in *; lia|destruct rest; [cbn in Lr; lia|discriminate]|left; reflexivity|].
      rewrite !app_nil_r in E. cbn [app] in *. exists q. split; [exact E|exact L].
Qed.

(** ** Absolute names *)
Definition nz (s : bytes) : Prop := Forall (fun c => c <> 0) s.

Lemma resolve_nz cs : forall st, Forall nz st -> Forall nz cs -> Forall nz (resolve st cs).
Proof.
  induction cs as [|c cs IH]; intros st F G; [exact F|]. cbn [resolve]. pose proof (Forall_inv G) as G1. apply Forall_inv_tail in G.
  destruct (list_eq_dec N.eq_dec c []); [apply IH; assumption|]. destruct (list_eq_dec N.eq_dec c [46]); [apply IH; assumption|].
  destruct (list_eq_dec N.eq_dec c [46; 46]); [apply IH; [apply Forall_removelast; exact F|exact G]|].
  apply IH; [|exact G]. apply Forall_app. split; [exact F|constructor; [exact G1|constructor]].
Qed.

Lemma split_nz s : nz s -> Forall nz (split s).
Proof.
  induction s as [|c s IH]; intro F; [constructor; constructor|]. specialize (IH (Forall_inv_tail F)). destruct (N.eq_dec c 47) as [->|H].
  - rewrite split_slash. constructor; [constructor|exact IH].
  - rewrite split_char by exact H. pose proof (split_ne s). destruct (split s) as [|h t]; [congruence|].
    constructor; [|exact (Forall_inv_tail IH)]. constructor; [exact (Forall_inv F)|exact (Forall_inv IH)].
Qed.

Lemma render_nz st : Forall nz st -> nz (render st).
Proof.
  induction st as [|c st IH]; intro F; [constructor|]. unfold render. cbn [flat_map app]. constructor; [discriminate|].
  apply Forall_app. split; [exact (Forall_inv F)|exact (IH (Forall_inv_tail F))].
Qed.

Lemma resolve_app a : forall st b, resolve st (a ++ b) = resolve (resolve st a) b.
Proof.
  induction a as [|c a IH]; intros st b; [reflexivity|]. cbn [app resolve]. repeat (destruct (list_eq_dec N.eq_dec c _); [apply IH|]). apply IH.
Qed.

Lemma resolve_slash st s : resolve st (split (s ++ [47])) = resolve st (split s).
Proof. change (s ++ [47]) with (s ++ 47 :: []). rewrite split_app, resolve_app. reflexivity. Qed.

Lemma close_ok s : (length s < LIM)%nat -> proper (hd [] (split s)) ->
  exists f, close_dotdot s = Some f /\ (f = s \/ f = s ++ [47]) /\ last (split f) [] <> [46; 46].
Proof.
  intros L [_ P]. unfold close_dotdot.
  destruct ((3 <=? length s)%nat && (nth (length s - 3) s 0 =? slash) && (nth (length s - 2) s 0 =? dot) && (nth (length s - 1) s 0 =? dot)) eqn:E.
  - destruct (Nat.leb_spec LIM (length s)); [lia|]. eexists. split; [reflexivity|]. split; [right; reflexivity|].
    change (s ++ [slash]) with (s ++ 47 :: []). rewrite split_app. cbn [split]. rewrite last_last. discriminate.
  - exists s. split; [reflexivity|]. split; [left; reflexivity|]. intro X.
    destruct (last_split s) as (w & Hw & [-> |[a ->]]); rewrite X in Hw; subst w; [apply P; reflexivity|].
    rewrite app_length in E. cbn [length] in E.
    replace (length a + 3 - 3)%nat with (length a) in E by lia. replace (length a + 3 - 2)%nat with (S (length a)) in E by lia.
    replace (length a + 3 - 1)%nat with (S (S (length a))) in E by lia.
    rewrite !app_nth2 in E by lia. rewrite Nat.sub_diag in E. replace (S (length a) - length a)%nat with 1%nat in E by lia.
    replace (S (S (length a)) - length a)%nat with 2%nat in E by lia. cbn [nth] in E.
    destruct (Nat.leb_spec 3 (length a + 3)); [discriminate|lia].
Qed.

Lemma place_rel base n : hd 0 n <> 47 -> place base n = resolve (resolve [] (split base)) (split n).
Proof. intro H. unfold place. destruct n as [|c n]; [reflexivity|]. cbn [hd] in H. destruct c as [|p]; [reflexivity|]. do 6 (destruct p; try reflexivity). congruence. Qed.

Lemma skipn_nth (b : bytes) : forall k i, nth i (skipn k b) 0 = nth (k + i) b 0.
Proof. induction b as [|x b IH]; intros [|k] i; cbn; try reflexivity; [destruct i; reflexivity|apply IH]. Qed.

Lemma absolute_core sgn g2 g3 q3 cwd result base name n trailing d :
  GetPlatformFilename sgn g3 name = Ok (n ++ 0 :: q3, true) -> nz n -> n <> [] -> proper (hd [] (split n)) ->
  (match base with Some d0 => GetPlatformFilename sgn g2 d0 | None => Getcwd g2 cwd end) = Ok (d ++ 0 :: skipn (S (length d)) g2, true) ->
  length g2 = S LIM -> nth LIM g2 0 <> 47 -> nz d -> hd 0 d = 47 -> Forall proper (split d) ->
  (length d + length n + 3 <= LIM)%nat -> (length (render (place d n) ++ ending trailing) < length result)%nat ->
  exists r, GetAbsoluteFilename sgn g2 g3 cwd result base name trailing = Ok (r, true) /\
    cstr r = Ok (render (place d n) ++ ending trailing) /\ length r = length result.
Proof.
  intros G3 Nn Hn Pn G2 L2 Z2 Nd Hd Pd Len Cap. unfold GetAbsoluteFilename. rewrite G3. cbn [bind negb]. rewrite cstr_app by exact Nn. cbn [bind].
  pose proof (remove_dots_split (length n) n ltac:(lia)) as Sp. pose proof (remove_dots_len (length n) n ltac:(lia)) as Ln.
  pose proof (remove_dots_hd n) as Hh. set (s := remove_dots n) in *. clearbody s.
  destruct (close_ok s ltac:(lia)) as (f & Ef & Hf & Lf); [rewrite Sp; exact Pn|]. rewrite Ef, G2. cbn [bind negb].
  assert (Sn : s <> []).
  { intros ->. cbn in Sp. injection Sp as Sp1 Sp2. cbn in Hh. destruct n as [|c n]; [congruence|]. cbn in Hh. subst c. apply (Forall_inv Nn). reflexivity. }
  assert (Ff : hd 0 f = hd 0 n /\ f <> [] /\ (length f <= S (length n))%nat /\ proper (hd [] (split f)) /\ ~ In [46] (tl (split f)) /\
    forall st, resolve st (split f) = resolve st (split n)).
  { assert (R : forall st, resolve st (split s) = resolve st (split n)).
    { intro st. rewrite Sp. pose proof (split_ne n). destruct (split n) as [|h t]; [congruence|]. cbn [hd tl].
      change (h :: dropdots t) with ([h] ++ dropdots t). change (h :: t) with ([h] ++ t). rewrite !resolve_app, resolve_dropdots. reflexivity. }
    destruct Hf as [-> | ->].
    - split; [exact Hh|]. split; [exact Sn|]. split; [lia|]. rewrite Sp. cbn [hd tl]. split; [exact Pn|]. split; [apply dropdots_no|].
      rewrite <- Sp. exact R.
    - split; [rewrite <- Hh; destruct s; [congruence|reflexivity]|]. split; [destruct s; discriminate|]. split; [rewrite app_length; cbn [length]; lia|].
      split; [|split; [|intro st; rewrite resolve_slash; apply R]]; change (s ++ [47]) with (s ++ 47 :: []); rewrite split_app, Sp; cbn [app hd tl split].
      + exact Pn.
      + intro X. apply in_app_or in X. destruct X as [X|[X|[]]]; [exact (dropdots_no _ X)|discriminate]. }
  destruct Ff as (F1 & F2 & F3 & F4 & F5 & F6).
  destruct d as [|d0 d]; [discriminate|]. cbn [hd] in Hd. subst d0. set (D := 47 :: d) in *. change (length (47 :: d)) with (length D) in *.
  assert (B0 : rd (D ++ 0 :: skipn (S (length D)) g2) 0 = Ok 47) by reflexivity. rewrite B0. cbn [bind]. change (47 =? slash) with true. cbn [negb].
  rewrite cstr_app by exact Nd. cbn [bind].
  assert (HD : (0 < length D)%nat) by (cbn; lia). assert (Dn : D <> []) by discriminate.
  assert (D0 : forall x, nth 0 (D ++ x) 0 = 47) by reflexivity. clearbody D. clear B0. destruct (Nat.ltb_spec 0 (length D)) as [_|X]; [|lia]. rewrite andb_true_l.
  assert (Step : exists b2' y', (if negb (nth (length D - 1) D 0 =? slash)
      then let* b' := blit (D ++ 0 :: skipn (S (length D)) g2) (length D) [slash; 0] in Ok (b', S (length D))
      else Ok (D ++ 0 :: skipn (S (length D)) g2, length D)) = Ok (b2', y') /\
      length b2' = S LIM /\ nth LIM b2' 0 <> 47 /\ (length D <= y' <= S (length D))%nat /\ nth 0 b2' 0 = 47 /\
      ends (firstn y' b2') /\ comps (firstn y' b2') = comps D).
  { assert (Ls : length (skipn (S (length D)) g2) = (LIM - length D)%nat) by (rewrite skipn_length; lia).
    assert (Ns : nth (LIM - S (length D)) (skipn (S (length D)) g2) 0 = nth LIM g2 0).
    { rewrite skipn_nth. f_equal. lia. }
    destruct (N.eqb_spec (nth (length D - 1) D 0) slash) as [E|E]; cbn [negb].
    - exists (D ++ 0 :: skipn (S (length D)) g2), (length D). split; [reflexivity|].
      split; [rewrite app_length; cbn [length]; lia|]. split.
      { rewrite app_nth2 by lia. replace (LIM - length D)%nat with (S (LIM - S (length D))) by lia. cbn [nth]. rewrite Ns. exact Z2. }
      split; [lia|]. split; [apply D0|]. rewrite firstn_app, firstn_all, Nat.sub_diag. cbn [firstn]. rewrite app_nil_r.
      split; [|reflexivity]. right. exists (removelast D). rewrite (app_removelast_last 0 Dn) at 1. f_equal. f_equal.
      rewrite last_nth. exact E.
    - destruct (skipn (S (length D)) g2) as [|g gs] eqn:Eg; [cbn in Ls; lia|]. cbn [length] in Ls.
      rewrite blit_in by (rewrite app_length; cbn [length]; lia). cbn [bind].
      exists (D ++ [47; 0] ++ gs), (S (length D)). split.
      { f_equal. f_equal. rewrite firstn_app, firstn_all, Nat.sub_diag. cbn [firstn]. rewrite app_nil_r. f_equal. f_equal.
        rewrite skipn_app, (skipn_all2 D) by (cbn [length]; lia). cbn [length app].
        replace (length D + 2 - length D)%nat with 2%nat by lia. reflexivity. }
      split; [rewrite !app_length; cbn [length]; lia|]. split.
      { rewrite app_nth2 by lia. replace (LIM - length D)%nat with (S (S (LIM - S (S (length D))))) by lia. cbn [nth app].
        replace (LIM - S (length D))%nat with (S (LIM - S (S (length D)))) in Ns by lia. cbn [nth] in Ns. rewrite Ns. exact Z2. }
      split; [lia|]. split; [apply D0|]. rewrite firstn_app, (firstn_all2 D) by lia. replace (S (length D) - length D)%nat with 1%nat by lia. cbn [firstn app].
      split; [right; exists D; reflexivity|apply comps_slash]. }
  destruct Step as (b2' & y' & Es & Lb & Zb & Yb & Hb0 & Eb & Cb).
  destruct (Nat.leb_spec LIM (length D)) as [X|_]; [lia|]. rewrite andb_false_r.
  match goal with |- context [bind (if negb _ then ?a else ?b) _] => replace (if negb (nth (length D - 1) D 0 =? slash) then a else b) with (Ok (b2', y')) by (symmetry; exact Es) end.
  cbn [bind].
  assert (Pl : place D n = resolve (if hd 0 n =? 47 then [] else comps D) (split n)).
  { destruct (N.eqb_spec (hd 0 n) 47) as [E|E].
    - destruct n as [|c n]; [congruence|]. cbn [hd] in E. subst c. reflexivity.
    - rewrite place_rel by exact E. rewrite (resolve_all_proper (split D)) by exact Pd. reflexivity. }
  assert (Fin : forall b4 len4 st0, length b4 = S LIM -> (len4 <= S (length D))%nat -> len4 <> O -> nth LIM b4 0 <> 47 -> nth 0 b4 0 = 47 ->
    ends (firstn len4 b4) -> comps (firstn len4 b4) = st0 -> place D n = resolve st0 (split n) -> Forall tidy st0 -> 
    exists r, (let* p := parse f b4 len4 in match p with None => Ok (result, false) | Some (b5, len5) => M_Path.finish b5 len5 result trailing end) = Ok (r, true) /\
    cstr r = Ok (render (place D n) ++ ending trailing) /\ length r = length result).
  { intros b4 len4 st0 L4 Hle Hne Z4 H40 E4 C4 P4 T4.
    destruct (parse_ok (length f) f ltac:(lia) b4 len4 (firstn len4 b4) [] L4 ltac:(lia) ltac:(rewrite app_nil_r; reflexivity) E4 ltac:(intros []) F4 F5 Lf
      ltac:(congruence) ltac:(intros _; exact H40) Z4) as (b5 & len5 & Ep & L5 & Hl5 & C5 & N5 & H50 & Z5).
    rewrite Ep. cbn [bind]. cbn [app] in C5. rewrite F6, C4, <- P4 in C5.
    assert (T5 : Forall tidy (place D n)) by (rewrite P4; apply resolve_tidy; [exact T4|apply split_noslash]).
    destruct (finish_ok b5 len5 (place D n) result trailing L5 Hl5 Z5 N5 H50 C5 T5 Cap) as (q & Eq & Lq). rewrite Eq.
    eexists. split; [reflexivity|]. split; [|exact Lq]. rewrite app_assoc. apply cstr_app. apply Forall_app. split.
    - apply render_nz. rewrite Pl. apply resolve_nz; [|apply split_nz; exact Nn]. destruct (hd 0 n =? 47); [constructor|].
      unfold comps. apply split_nz in Nd. apply Forall_forall. intros x Hx. apply filter_In in Hx. rewrite Forall_forall in Nd. exact (Nd _ (proj1 Hx)).
    - destruct trailing; cbn; [constructor; [discriminate|constructor]|constructor]. }
  assert (TD : Forall tidy (comps D)).
  { unfold comps. pose proof (split_noslash D) as NS. apply Forall_forall. intros x Hx. apply filter_In in Hx. destruct Hx as [Hx1 Hx2].
    rewrite Forall_forall in NS, Pd. split; [exact (Pd _ Hx1)|]. split; [intros ->; discriminate|exact (NS _ Hx1)]. }
  destruct f as [|c f]; [congruence|]. cbn [hd] in F1. subst c. change slash with 47. destruct (N.eqb_spec (hd 0 n) 47) as [E|E]; rewrite ?E.
  - change (LIM <=? 0)%nat with false. cbv iota. change (0 =? 0)%nat with true. cbv iota.
    rewrite wr_in by lia. cbn [bind]. rewrite E in Fin.
    destruct b2' as [|x b2']; [discriminate|]. cbn [upd]. apply (Fin (47 :: b2') 1%nat []).
    + exact Lb.
    + lia.
    + discriminate.
    + destruct LIM; [lia|exact Zb].
    + reflexivity.
    + right. exists []. reflexivity.
    + reflexivity.
    + exact Pl.
    + constructor.
  - destruct (Nat.leb_spec LIM y') as [X|_]; [lia|]. destruct (Nat.eqb_spec y' 0) as [X|_]; [lia|]. cbn [bind].
    apply (Fin b2' y' (comps D)); try assumption; lia.
Qed.

(** ** Names in UTF-8 *)
Lemma unix_len s : length (unix s) = length s.
Proof. apply map_length. Qed.

Lemma wf_zero name : wf_utf8 name -> name <> [] -> wf_utf8 (name ++ [0]).
Proof.
  intros (cps & [G1 G2] & ->) Hne. exists (cps ++ [0]). split.
  - split.
    + apply Forall_app. split; [exact G1|]. constructor; [|constructor]. unfold allowed. split; [lia|]. split; [lia|]. split; [lia|]. reflexivity.
    + destruct cps as [|c cps]; [exfalso; apply Hne; reflexivity|exact G2].
  - unfold text. rewrite map_app, concat_app. reflexivity.
Qed.

(** Names accepted where char is signed ([sgn]) or not. *)
Definition nice (sgn : bool) (name : bytes) : Prop :=
  name <> [] /\ wf_utf8 name /\ Forall permitted name /\ (sgn = true -> Forall (fun c => c < 128) name).

Lemma gpf_nice sgn b name : nice sgn name -> (length name < length b)%nat ->
  GetPlatformFilename sgn b name = Ok (unix name ++ 0 :: skipn (S (length name)) b, true).
Proof.
  intros (Hne & W & P & S) L. apply gpf_good; [apply wf_zero; assumption| |exact Hne| |exact L].
  - eapply Forall_impl; [|exact P]. intros c Hc. unfold permitted in Hc. lia.
  - rewrite Forall_forall in P. apply Forall_forall. intros c Hc. pose proof (P c Hc) as Pc. unfold permitted in Pc. unfold bad_char.
    destruct sgn; [|lia]. specialize (S eq_refl). rewrite Forall_forall in S. specialize (S c Hc). cbn beta in S. lia.
Qed.

Lemma nice_nz sgn name : nice sgn name -> nz (unix name).
Proof.
  intros (_ & _ & P & _). unfold nz, unix. apply Forall_map. eapply Forall_impl; [|exact P]. intros c Hc. unfold permitted in Hc.
  destruct (c =? 92); lia.
Qed.

(** ** Staying inside the arrays *)
Definition ctext (s : bytes) : Prop := Forall (fun c => 0 < c < 256) s.

Lemma cstr_cut l : forall q, exists s, cstr (l ++ 0 :: q) = Ok s /\ nz s /\ exists q', l ++ 0 :: q = s ++ 0 :: q'.
Proof.
  induction l as [|c l IH]; intro q; cbn [app cstr].
  - exists []. split; [reflexivity|]. split; [constructor|]. exists q. reflexivity.
  - destruct (N.eqb_spec c 0) as [->|Hc]; [exists []; split; [reflexivity|]; split; [constructor|]; eexists; reflexivity|].
    destruct (IH q) as (s & E1 & Hs & q' & E2). exists (c :: s). rewrite E1. split; [reflexivity|]. split; [constructor; assumption|]. exists q'. rewrite E2. reflexivity.
Qed.

Lemma gpf_total sgn b name : ctext name -> length b = S LIM ->
  exists b' ok, GetPlatformFilename sgn b name = Ok (b', ok) /\
  (ok = true -> length b' = S LIM /\ (nth LIM b 0 <> 47 -> nth LIM b' 0 <> 47) /\ exists s q, b' = s ++ 0 :: q /\ nz s /\ ctext s).
Proof.
  intros B0 Lb. unfold GetPlatformFilename. destruct (Nat.ltb_spec (length b) (length name + 1)) as [_|L]; [exists b, false; split; [reflexivity|discriminate]|].
  assert (B : byteList (name ++ [0])).
  { apply Forall_app; split; [|constructor; [reflexivity|constructor]]. eapply Forall_impl; [|exact B0]. cbv beta. intros c Hc. apply Hc. }
  destruct (scan8_exists _ B) as [cps Hs].
  destruct (Prop_Utf8.C12_output_exact Wd1 (name ++ [0]) cps b (length b) (conj B Hs) (le_n _)) as (o & lp & E & K).
  match goal with |- context [bind ?e _] => replace e with (Ok (Some (Prop_Utf8.stored b o), length o, lp)) by (symmetry; exact E) end.
  cbn [bind]. pose proof (keeps_cap _ _ _ _ _ K ltac:(cbn; lia)) as Lo. cbn in Lo.
  destruct (scan8_zero _ _ Hs name eq_refl) as (c0 & -> & Hl).
  destruct (keeps_zero _ _ _ _ K) as [o0 ->]; [cbn; lia|]. unfold Prop_Utf8.stored. rewrite <- app_assoc. cbn [app].
  rewrite app_length in *. cbn [length] in *.
  assert (Z : nth LIM b 0 <> 47 -> nth LIM (o0 ++ 0 :: skipn (length o0 + 1) b) 0 <> 47).
  { intro Z. rewrite app_nth2 by lia. destruct (LIM - length o0)%nat as [|k] eqn:Ek; [discriminate|]. cbn [nth]. rewrite skipn_nth.
    replace (length o0 + 1 + k)%nat with LIM by lia. exact Z. }
  assert (LL : length (o0 ++ 0 :: skipn (length o0 + 1) b) = S LIM) by (rewrite app_length; cbn [length]; rewrite skipn_length; lia).
  destruct (cstr_cut o0 (skipn (length o0 + 1) b)) as (s & E1 & _ & q' & E2). rewrite E1. cbn [bind].
  destruct (length s =? 0)%nat; cbn [orb]; [do 2 eexists; split; [reflexivity|discriminate]|].
  destruct (list_eq_dec N.eq_dec s name) as [->|_]; cbn [negb]; [|do 2 eexists; split; [reflexivity|discriminate]].
  rewrite E2 in *. destruct (Forall_dec (fun c => bad_char sgn c = false) ltac:(intro; apply bool_dec) name) as [G|G].
  - pose proof (gpf_loop_good sgn name G [] (0 :: q')) as GL. cbn [app length] in GL. rewrite GL. do 2 eexists. split; [reflexivity|]. intros _.
    rewrite app_length in LL. cbn [length] in LL.
    split; [rewrite app_length, unix_len; exact LL|]. split.
    + intro Z0. specialize (Z Z0). rewrite app_nth2 in Z by lia. rewrite app_nth2 by (rewrite unix_len; lia). rewrite unix_len. exact Z.
    + exists (unix name), q'. split; [reflexivity|]. unfold nz, ctext, unix. split; apply Forall_map; (eapply Forall_impl; [|exact B0]); cbv beta; intros c Hc; destruct (c =? 92); lia.
  - apply neg_Forall_Exists_neg in G; [|intro; apply bool_dec].
    destruct (gpf_loop_bad sgn name) with (p := @nil N) (q := 0 :: q') as [b' Eb].
    + eapply Exists_impl; [|exact G]. cbn. intros c Hc. destruct (bad_char sgn c); congruence.
    + cbn [app length] in Eb. rewrite Eb. do 2 eexists. split; [reflexivity|discriminate].
Qed.

Lemma drop_le b : forall len, (drop_slashes b len <= len)%nat /\ (drop_name b len <= len)%nat.
Proof.
  induction len as [|l [IH1 IH2]]; [cbn; lia|]. cbn [drop_slashes drop_name]. destruct (nth l b 0 =? slash); lia.
Qed.

Lemma upd_other (b : bytes) v d : forall i j, i <> j -> nth j (upd b i v) d = nth j b d.
Proof. induction b as [|x b IH]; intros [|i] [|j] H; cbn; try reflexivity; try congruence. apply IH. congruence. Qed.

Lemma parse_total n : forall r, (length r <= n)%nat -> forall b len, length b = S LIM -> (len <= LIM)%nat ->
  exists o, parse r b len = Ok o /\ match o with None => True | Some (b', len') => length b' = S LIM /\ (len' <= LIM)%nat /\ nth LIM b' 0 = nth LIM b 0 end.
Proof.
  induction n as [|n IH]; intros r Hr b len Lb Hl; (destruct r as [|c r1]; [exists (Some (b, len)); split; [reflexivity|]; split; [exact Lb|]; split; [exact Hl|reflexivity]|]); [cbn in Hr; lia|].
  cbn [length] in Hr.
  assert (Put : exists o, (if (LIM <=? len)%nat then Ok None else let* b1 := wr b len c in parse r1 b1 (S len)) = Ok o /\
    match o with None => True | Some (b', len') => length b' = S LIM /\ (len' <= LIM)%nat /\ nth LIM b' 0 = nth LIM b 0 end).
  { destruct (Nat.leb_spec LIM len) as [X|X]; [eexists; split; [reflexivity|exact I]|]. rewrite wr_in by lia. cbn [bind].
    destruct (IH r1 ltac:(lia) (upd b len c) (S len)) as (o & E & Ho); [rewrite upd_length; exact Lb|lia|]. exists o. split; [exact E|].
    rewrite upd_other in Ho by lia. exact Ho. }
  cbn [parse]. destruct r1 as [|a [|a2 [|a3 t]]]; try exact Put.
  destruct ((c =? slash) && (a =? dot) && (a2 =? dot) && (a3 =? slash)); [|exact Put].
  apply IH; [cbn [length] in *; lia|exact Lb|]. pose proof (drop_le b (drop_slashes b len)). pose proof (drop_le b len). lia.
Qed.

Lemma skip_total b : length b = S LIM -> nth LIM b 0 <> 47 -> forall fuel x, (x <= LIM)%nat -> (LIM - x < fuel)%nat ->
  exists x', skip_slashes fuel b x = Ok x' /\ (x <= x' <= LIM)%nat.
Proof.
  intros Lb Z. induction fuel as [|g IH]; intros x Hx Hf; [lia|]. cbn [skip_slashes]. rewrite (rd_in _ _ 0) by lia. cbn [bind].
  destruct (N.eqb_spec (nth x b 0) slash) as [E|_]; [|exists x; split; [reflexivity|lia]].
  assert (x <> LIM) by (intros ->; exact (Z E)). rewrite (rd_in _ _ 0) by lia. cbn [bind].
  destruct (N.eqb_spec (nth (S x) b 0) slash) as [E2|_]; [|exists x; split; [reflexivity|lia]].
  destruct (IH (S x) ltac:(lia) ltac:(lia)) as (x' & E' & H'). exists x'. split; [exact E'|lia].
Qed.

Lemma copy_total b len : length b = S LIM -> nth LIM b 0 <> 47 -> (len <= LIM)%nat -> forall fuel x result x2,
  (LIM < fuel + x)%nat -> (0 < fuel)%nat -> (x2 <= length result)%nat ->
  exists r x2', copy_out fuel b len x result x2 = Ok (r, x2') /\ length r = length result /\ (x2' <= length r)%nat.
Proof.
  intros Lb Z Hl. induction fuel as [|g IH]; intros x result x2 Hf Hf0 H2; [lia|]. cbn [copy_out].
  destruct (Nat.ltb_spec x2 (length result)) as [A|A]; cbn [andb]; [|exists result, x2; split; [reflexivity|]; split; [reflexivity|lia]].
  destruct (Nat.ltb_spec x len) as [B|B]; [|exists result, x2; split; [reflexivity|]; split; [reflexivity|lia]].
  destruct (skip_total b Lb Z (S (length b)) x ltac:(lia) ltac:(lia)) as (x' & E & Hx'). rewrite E. cbn [bind].
  rewrite (rd_in _ _ 0) by lia. cbn [bind]. rewrite wr_in by lia. cbn [bind].
  destruct g as [|g]; [lia|].
  destruct (IH (S x') (upd result x2 (nth x' b 0)) (S x2)) as (r & y & E1 & E2 & E3); [lia|lia|rewrite upd_length; lia|].
  rewrite upd_length in E2. exists r, y. split; [exact E1|]. split; [exact E2|exact E3].
Qed.

Lemma sane_total r x4 : (x4 < length r)%nat -> nth x4 r 0 = 0 -> forall n x, (x + n = x4)%nat -> exists ok, sane n r x = Ok ok.
Proof.
  intros L Z. induction n as [|n IH]; intros x Hx; [exists true; reflexivity|]. cbn [sane].
  destruct (IH (S x) ltac:(lia)) as [ok IH']. rewrite (rd_in _ _ 0) by lia. cbn [bind].
  destruct (nth x r 0 =? slash); [|eauto]. rewrite (rd_in _ _ 0) by lia. cbn [bind].
  destruct (N.eqb_spec (nth (x + 1) r 0) dot) as [E1|_]; [|eauto].
  assert (x + 1 <> x4)%nat by (intros X; rewrite X, Z in E1; discriminate). rewrite (rd_in _ _ 0) by lia. cbn [bind].
  destruct (nth (x + 2) r 0 =? slash); [eauto|]. destruct (N.eqb_spec (nth (x + 2) r 0) dot) as [E2|_]; [|eauto].
  assert (x + 2 <> x4)%nat by (intros X; rewrite X, Z in E2; discriminate). rewrite (rd_in _ _ 0) by lia. cbn [bind].
  destruct (nth (x + 3) r 0 =? slash); eauto.
Qed.

Lemma finish_total b len result trailing : length b = S LIM -> nth LIM b 0 <> 47 -> (len <= LIM)%nat ->
  exists r ok, M_Path.finish b len result trailing = Ok (r, ok) /\ length r = length result /\ (ok = true -> exists s, cstr r = Ok s).
Proof.
  intros Lb Z Hl. unfold M_Path.finish.
  destruct (copy_total b len Lb Z Hl (S (length b)) 0 result 0) as (r1 & x2 & E & L1 & H1); [lia|lia|lia|]. rewrite E. cbn [bind].
  match goal with |- context [bind ?e _] => assert (S2 : exists r2 x3, e = Ok (r2, x3) /\ length r2 = length result /\ (x3 <= length r2)%nat) end.
  { destruct (trailing && (0 <? x2)%nat) eqn:T; [|exists r1, x2; auto]. apply andb_prop in T. destruct T as [_ T]. apply Nat.ltb_lt in T.
    rewrite (rd_in _ _ 0) by lia. cbn [bind]. destruct (_ && _) eqn:C; [|exists r1, x2; auto]. apply andb_prop in C. destruct C as [_ C]. apply Nat.ltb_lt in C.
    rewrite wr_in by exact C. cbn [bind]. do 2 eexists. split; [reflexivity|]. rewrite upd_length. split; [exact L1|lia]. }
  destruct S2 as (r2 & x3 & E2 & L2 & H2). rewrite E2. cbn [bind].
  match goal with |- context [bind ?e _] => assert (S3 : exists x4, e = Ok x4) end.
  { destruct (negb trailing && (0 <? x3)%nat) eqn:T; [|eauto]. apply andb_prop in T. destruct T as [_ T]. apply Nat.ltb_lt in T.
    rewrite (rd_in _ _ 0) by lia. cbn [bind]. eauto. }
  destruct S3 as (x4 & E4). rewrite E4. cbn [bind].
  destruct (Nat.leb_spec (length r2) x4) as [X|X]; [exists r2, false; split; [reflexivity|]; split; [exact L2|discriminate]|].
  rewrite wr_in by exact X. cbn [bind]. destruct (sane_total (upd r2 x4 0) x4) with (n := x4) (x := O) as [ok Es]; [rewrite upd_length; exact X| |reflexivity|].
  { apply nth_error_nth. apply upd_nth_same. exact X. }
  rewrite Es. cbn [bind]. do 2 eexists. split; [reflexivity|]. rewrite upd_length. split; [exact L2|]. intros _.
  rewrite upd_split by exact X. destruct (cstr_cut (firstn x4 r2) (skipn (S x4) r2)) as (s & Es2 & _). exists s. exact Es2.
Qed.

Lemma absolute_total sgn g2 g3 cwd result base name trailing : length g2 = S LIM -> length g3 = S LIM -> nth LIM g2 0 <> 47 ->
  ctext name -> ctext cwd -> (match base with Some d => ctext d | None => True end) ->
  exists r ok, GetAbsoluteFilename sgn g2 g3 cwd result base name trailing = Ok (r, ok) /\ length r = length result /\
    (ok = true -> exists s, cstr r = Ok s).
Proof.
  intros L2 L3 Z2 Cn Cc Cb. unfold GetAbsoluteFilename.
  assert (No : exists r ok, Ok (result, false) = Ok (r, ok) /\ length r = length result /\ (ok = true -> exists s, cstr r = Ok s)).
  { exists result, false. split; [reflexivity|]. split; [reflexivity|discriminate]. }
  destruct (gpf_total sgn g3 name Cn L3) as (b3 & ok3 & E3 & H3). rewrite E3. cbn [bind]. destruct ok3; cbn [negb]; [|exact No].
  destruct (H3 eq_refl) as (_ & _ & s & q & -> & Ns & _). rewrite cstr_app by exact Ns. cbn [bind].
  destruct (close_dotdot (remove_dots s)) as [f3|]; [|exact No].
  assert (B2 : exists b2 ok, (match base with Some d => GetPlatformFilename sgn g2 d | None => Getcwd g2 cwd end) = Ok (b2, ok) /\
    (ok = true -> length b2 = S LIM /\ nth LIM b2 0 <> 47 /\ exists s q, b2 = s ++ 0 :: q /\ nz s)).
  { destruct base as [d|].
    - destruct (gpf_total sgn g2 d Cb L2) as (b2 & ok & E & H). exists b2, ok. split; [exact E|]. intros O. destruct (H O) as (H1 & H2' & s1 & q1 & H4 & H5 & _). eauto 8.
    - unfold Getcwd. destruct (Nat.leb_spec (length cwd + 1) (length g2)) as [X|X]; [|exists g2, false; split; [reflexivity|discriminate]].
      rewrite blit_in by (rewrite app_length; cbn [length]; lia). cbn [bind firstn app Nat.add]. do 2 eexists. split; [reflexivity|]. intros _.
      rewrite app_length, <- app_assoc. cbn [length app]. split; [rewrite app_length; cbn [length]; rewrite skipn_length; lia|]. split.
      + rewrite app_nth2 by lia. destruct (LIM - length cwd)%nat as [|k] eqn:Ek; [discriminate|]. cbn [nth]. rewrite skipn_nth.
        replace (length (cwd ++ [0%N]) + k)%nat with LIM by (rewrite app_length; cbn [length]; lia). exact Z2.
      + exists cwd. eexists. split; [reflexivity|]. eapply Forall_impl; [|exact Cc]. cbv beta. intros c Hc. lia. }
  destruct B2 as (b2 & ok2 & E2 & H2). rewrite E2. cbn [bind]. destruct ok2; cbn [negb]; [|exact No].
  destruct (H2 eq_refl) as (Lb & Zb & d & q2 & Eb & Nd). rewrite (rd_in _ _ 0) by lia. cbn [bind].
  destruct (negb (nth 0 b2 0 =? slash)); [exact No|].
  assert (Cs : cstr b2 = Ok d) by (rewrite Eb; apply cstr_app; exact Nd). rewrite Cs. cbn [bind].
  assert (Ld : (length d <= LIM)%nat) by (rewrite Eb, app_length in Lb; cbn [length] in Lb; lia).
  set (cnd := (0 <? length d)%nat && negb (nth (length d - 1) d 0 =? slash)).
  destruct (cnd && (LIM <=? length d)%nat) eqn:C; [exact No|].
  match goal with |- context [bind ?e _] => assert (S2 : exists b2' y', e = Ok (b2', y') /\ length b2' = S LIM /\ nth LIM b2' 0 <> 47 /\ (y' <= LIM)%nat) end.
  { destruct cnd; [|do 2 eexists; split; [reflexivity|]; auto]. cbn [andb] in C. destruct (Nat.leb_spec LIM (length d)) as [X|X]; [discriminate|].
    rewrite blit_in by (cbn [length]; lia). cbn [bind length]. do 2 eexists. split; [reflexivity|].
    split; [rewrite !app_length, firstn_length, skipn_length; cbn [length]; lia|]. split; [|lia].
    rewrite app_nth2 by (rewrite firstn_length; lia). rewrite firstn_length, Nat.min_l by lia. cbn [app].
    destruct (LIM - length d)%nat as [|[|k]] eqn:Ek; [lia|discriminate|]. cbn [nth]. rewrite skipn_nth. replace (length d + 2 + k)%nat with LIM by lia. exact Zb. }
  destruct S2 as (b2' & y' & Es & Lb' & Zb' & Hy). rewrite Es. cbn [bind].
  match goal with |- context [(LIM <=? ?l)%nat] => set (len := l) end.
  destruct (Nat.leb_spec LIM len) as [X|X]; [exact No|].
  match goal with |- context [bind ?e _] => assert (S4 : exists b4 len4, e = Ok (b4, len4) /\ length b4 = S LIM /\ nth LIM b4 0 <> 47 /\ (len4 <= LIM)%nat) end.
  { destruct (len =? 0)%nat; [|do 2 eexists; split; [reflexivity|]; split; [exact Lb'|]; split; [exact Zb'|lia]].
    rewrite wr_in by lia. cbn [bind]. do 2 eexists. split; [reflexivity|]. rewrite upd_length. split; [exact Lb'|]. split; [|lia].
    rewrite upd_other by lia. exact Zb'. }
  destruct S4 as (b4 & len4 & E4 & L4 & Z4 & H4). rewrite E4. cbn [bind].
  destruct (parse_total (length f3) f3 (le_n _) b4 len4 L4 H4) as (o & Ep & Ho). rewrite Ep. cbn [bind].
  destruct o as [[b5 len5]|]; [|exact No]. destruct Ho as (L5 & H5 & Z5). apply finish_total; [exact L5|rewrite Z5; exact Z4|exact H5].
Qed.

(** ** Parts of file names *)
Lemma back_ok p w : ends p -> noslash w -> forall k, (k <= length w)%nat -> back_to_slash (p ++ w) (length p + k) = length p.
Proof.
  intros P W. induction k as [|k IH]; intro Hk.
  - rewrite Nat.add_0_r. destruct P as [-> |[v ->]]; [reflexivity|]. rewrite app_length. cbn [length]. rewrite Nat.add_1_r. cbn [back_to_slash].
    rewrite <- app_assoc, app_nth2, Nat.sub_diag by lia. reflexivity.
  - rewrite Nat.add_succ_r. cbn [back_to_slash]. rewrite app_nth2 by lia. replace (length p + k - length p)%nat with k by lia.
    destruct (N.eqb_spec (nth k w 0) slash) as [E|_]; [|apply IH; lia]. exfalso. apply W. change 47 with slash. rewrite <- E. apply nth_In. lia.
Qed.

Lemma to_dot_ok stem : ~ In 46 stem -> forall ext p, (ext = [] \/ exists r, ext = 46 :: r) ->
  to_dot (length (stem ++ ext)) (p ++ stem ++ ext) (length p) = (length p + length stem)%nat.
Proof.
  induction stem as [|c stem IH]; intros H ext p E.
  - cbn [app length]. rewrite Nat.add_0_r. destruct E as [-> |[r ->]]; [reflexivity|]. cbn [length to_dot]. rewrite app_nth2, Nat.sub_diag by lia. reflexivity.
  - cbn [app length to_dot]. rewrite app_nth2, Nat.sub_diag by lia. cbn [nth]. destruct (N.eqb_spec c dot) as [X|_]; [exfalso; apply H; left; exact X|].
    specialize (IH (fun X => H (or_intror X)) ext (p ++ [c]) E). rewrite (app_length p [c]) in IH. cbn [length] in IH. rewrite <- app_assoc in IH. cbn [app] in IH.
    rewrite Nat.add_1_r in IH. rewrite IH. lia.
Qed.

Lemma last_dot_none t : ~ In 46 t -> forall p l, last_dot (length t) (p ++ t) (length p) l = l.
Proof.
  induction t as [|c t IH]; intros H p l; [reflexivity|]. cbn [length last_dot]. rewrite app_nth2, Nat.sub_diag by lia. cbn [nth].
  destruct (N.eqb_spec c dot) as [X|_]; [exfalso; apply H; left; exact X|].
  specialize (IH (fun X => H (or_intror X)) (p ++ [c]) l). rewrite (app_length p [c]) in IH. cbn [length] in IH. rewrite <- app_assoc in IH. cbn [app] in IH.
  rewrite Nat.add_1_r in IH. exact IH.
Qed.

Lemma last_dot_ok a : forall w p l, ~ In 46 w -> last_dot (length (a ++ 46 :: w)) (p ++ a ++ 46 :: w) (length p) l = (length p + length a)%nat.
Proof.
  induction a as [|c a IH]; intros w p l H.
  - cbn [app length last_dot]. rewrite app_nth2, Nat.sub_diag by lia. cbn [nth]. change (46 =? dot) with true. cbv iota.
    pose proof (last_dot_none w H (p ++ [46]) (length p)) as E. rewrite (app_length p [46]) in E. cbn [length] in E. rewrite <- app_assoc in E. cbn [app] in E.
    rewrite Nat.add_1_r in E. rewrite E. lia.
  - cbn [app length last_dot]. rewrite app_nth2, Nat.sub_diag by lia. cbn [nth].
    match goal with |- last_dot _ _ _ ?l' = _ => specialize (IH w (p ++ [c]) l' H) end. rewrite (app_length p [c]) in IH. cbn [length] in IH. rewrite <- app_assoc in IH. cbn [app] in IH.
    rewrite Nat.add_1_r in IH. rewrite IH. lia.
Qed.

Lemma info_ok f p w s1 e1 s2 e2 : parts f p w -> first_ext w s1 e1 -> last_ext w s2 e2 ->
  GetPlatformFilenameInfo f = (length p, (length p + length s1)%nat, (length p + length s2)%nat).
Proof.
  intros (-> & P & W) (-> & S1 & E1) (E & L). unfold GetPlatformFilenameInfo. rewrite app_length.
  pose proof (back_ok p (s1 ++ e1) P W (length (s1 ++ e1)) (le_n _)) as B.
  match goal with |- context [back_to_slash ?a ?b] => replace (back_to_slash a b) with (length p) by (symmetry; exact B) end.
  replace (length p + length (s1 ++ e1) - length p)%nat with (length (s1 ++ e1)) by lia. rewrite to_dot_ok by assumption.
  f_equal. rewrite app_length. replace (length p + (length s1 + length e1) - (length p + length s1))%nat with (length e1) by lia.
  destruct L as [[-> L]|[r [-> L]]].
  - rewrite app_nil_r in E. subst s2. assert (X : e1 = []).
    { destruct E1 as [-> |[r ->]]; [reflexivity|]. exfalso. apply L. apply in_or_app. right. left. reflexivity. }
    subst e1. rewrite app_nil_r. reflexivity.
  - (* the last dot is in e1 *)
    assert (X : exists a, e1 = a ++ 46 :: r /\ s2 = s1 ++ a).
    { clear - E S1. revert s2 E. induction s1 as [|c s1 IH]; intros s2 E; [exists s2; split; [exact E|reflexivity]|].
      destruct s2 as [|c2 s2]; cbn [app] in E; injection E as E1 E2.
      - exfalso. apply S1. left. exact E1.
      - destruct (IH (fun X => S1 (or_intror X)) s2 E2) as (a & Ea & Es). exists a. split; [exact Ea|]. cbn. congruence. }
    destruct X as (a & -> & ->). rewrite app_assoc, <- (app_length p s1).
    rewrite last_dot_ok by exact L. rewrite !app_length. lia.
Qed.

Lemma parts_exist f : exists p w s1 e1 s2 e2, parts f p w /\ first_ext w s1 e1 /\ last_ext w s2 e2.
Proof.
  destruct (ends_cut f) as (p & w & E & P & W). exists p, w.
  assert (F : exists s1 e1, first_ext w s1 e1).
  { clear. unfold first_ext. induction w as [|c w (s1 & e1 & -> & H & E)]; [exists [], []; split; [reflexivity|]; split; [intros []|left; reflexivity]|].
    destruct (N.eq_dec c 46) as [->|Hc]; [exists [], (46 :: s1 ++ e1); split; [reflexivity|]; split; [intros []|right; eexists; reflexivity]|].
    exists (c :: s1), e1. split; [reflexivity|]. split; [|exact E]. intros [X|X]; [congruence|exact (H X)]. }
  assert (L : exists s2 e2, last_ext w s2 e2).
  { clear. unfold last_ext. induction w as [|c w (s2 & e2 & -> & H)]; [exists [], []; split; [reflexivity|]; left; split; [reflexivity|intros []]|].
    destruct H as [[-> H]|[r [-> H]]].
    - rewrite app_nil_r in *. destruct (N.eq_dec c 46) as [->|Hc].
      + exists [], (46 :: s2). split; [reflexivity|]. right. exists s2. auto.
      + exists (c :: s2), []. rewrite app_nil_r. split; [reflexivity|]. left. split; [reflexivity|]. intros [X|X]; [congruence|exact (H X)].
    - exists (c :: s2), (46 :: r). split; [reflexivity|]. right. exists r. auto. }
  destruct F as (s1 & e1 & F). destruct L as (s2 & e2 & L). exists s1, e1, s2, e2. split; [|auto]. split; [exact E|]. auto.
Qed.
