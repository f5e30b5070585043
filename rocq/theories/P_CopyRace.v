(** Proofs about copying among other processes. *)
From Verif Require Import Base S_Attr S_Secret S_CopyRace M_Attr M_CopyRace.
Open Scope N_scope.

Section Copy.
Variable strip : N -> N.
Variable u : user.
Variable mask newgroup : N.
Variable buf0 : bytes.
Notation own := (own strip u mask newgroup buf0).
Notation crun := (crun strip u mask newgroup buf0).

Lemma crun_trans o x y z : crun o x y -> crun o y z -> crun o x z.
Proof. intros A B. revert A. induction B; intro A; [exact A| |]; [eapply cr_own; [apply IHB; exact A|eassumption]|eapply cr_other; [apply IHB; exact A|eassumption]]. Qed.
Lemma crun_own o x y : own x y -> crun o x y.
Proof. intro S. eapply cr_own; [apply cr_nil|exact S]. Qed.

Lemma set_same f i n : node (set_node f i n) i = Some n.
Proof. cbn. destruct (Nat.eq_dec i i); [reflexivity|congruence]. Qed.
Lemma set_other f i j n : j <> i -> node (set_node f i n) j = node f j.
Proof. cbn. intro H. destruct (Nat.eq_dec j i); [congruence|reflexivity]. Qed.

Lemma by_name_names f g : src_is (by_name f g) = src_is f /\ dst_is (by_name f g) = dst_is f.
Proof. unfold by_name. destruct (dst_is f) as [i|] eqn:E; [destruct (node f i)|]; cbn; auto. Qed.
Lemma by_name_other f g i : dst_is f <> Some i -> node (by_name f g) i = node f i.
Proof. intro H. unfold by_name. destruct (dst_is f) as [j|] eqn:E; [|reflexivity]. destruct (node f j); [|reflexivity]. apply set_other. congruence. Qed.
Lemma by_name_same f g i n : dst_is f = Some i -> node f i = Some n -> node (by_name f g) i = Some (Fl (g (attr n)) (data n)).
Proof. intros E H. unfold by_name. rewrite E, H. apply set_same. Qed.
Lemma by_name_data f g i n : node f i = Some n -> exists n', node (by_name f g) i = Some n' /\ data n' = data n.
Proof.
  intro H. unfold by_name. destruct (dst_is f) as [j|]; [|eauto]. destruct (node f j) as [m|] eqn:E; [|eauto].
  destruct (Nat.eq_dec i j) as [->|D]; [|rewrite set_other by exact D; eauto]. rewrite set_same. eexists. split; [reflexivity|]. cbn. congruence.
Qed.

(** ** Files the destination's name never stands for *)
Definition opened (c : pc) : option nat :=
  match c with
  | PRead _ _ d _ _ _ | PWrite _ _ d _ _ _ | PTrunc _ _ d _ | PChown _ _ d | PChmod _ _ d | PStat3 _ _ d | PUtime _ _ d _ => Some d
  | _ => None
  end.
Lemma own_apart i n x y : own x y -> node (fst x) i = Some n -> dst_is (fst x) <> Some i -> opened (snd x) <> Some i ->
  node (fst y) i = Some n /\ dst_is (fst y) <> Some i /\ opened (snd y) <> Some i.
Proof.
  intros S; destruct S; cbn [fst snd opened]; intros Hi D O;
    try (split; [rewrite ?by_name_other by exact D; exact Hi|split; [rewrite ?(proj2 (by_name_names _ _)); exact D|first [exact O|discriminate|congruence]]]; fail).
  - assert (X : i <> d) by congruence. cbn [node]. rewrite set_other by exact X. cbn [dst_is]. repeat split; [exact Hi|congruence|congruence].
  - assert (X : i <> d) by congruence. rewrite set_other by exact X. auto.
  - assert (X : i <> d) by congruence. rewrite set_other by exact X. auto.
Qed.
Lemma run_apart i n o x y : crun o x y -> apart i o -> node (fst x) i = Some n -> dst_is (fst x) <> Some i -> opened (snd x) <> Some i ->
  node (fst y) i = Some n /\ dst_is (fst y) <> Some i /\ opened (snd y) <> Some i.
Proof.
  intros R A H D O. induction R as [x|x y z R IH S|x f c f' R IH S]; [auto| |].
  - destruct (IH H D O) as (H1 & D1 & O1). exact (own_apart i n y z S H1 D1 O1).
  - destruct (IH H D O) as (H1 & D1 & O1). cbn [fst snd] in *. destruct (A f f' S) as [A1 A2]. repeat split; [congruence|auto|exact O1].
Qed.

(** ** Contents *)
Lemma COPY_pos : (0 < COPY)%nat.
Proof. unfold COPY. lia. Qed.
Definition has (f : fs) (i : nat) (l : bytes) : Prop := exists n, node f i = Some n /\ data n = l.
Definition progress (S D : bytes) (rp wp : nat) : Prop :=
  (wp <= length D)%nat /\ (rp <= length S)%nat /\ exists t, firstn wp D = firstn rp S ++ t /\ ((t = [] /\ rp = wp) \/ (rp = length S /\ (length t < COPY)%nat)).
Definition done (S D : bytes) : Prop := exists t, D = S ++ t /\ (length t < COPY)%nat.
(** [S]: the contents of the source *)
Definition inv (f : fs) (c : pc) : Prop :=
  match c with
  | PRead _ s d rp wp buf => d <> s /\ length buf = COPY /\ exists S D, has f s S /\ has f d D /\ progress S D rp wp
  | PWrite _ s d rp wp buf => d <> s /\ length buf = COPY /\ exists S D, has f s S /\ has f d D /\ (wp <= length D)%nat /\
      (wp < length S)%nat /\ firstn wp D = firstn wp S /\ (wp <= rp <= length S)%nat /\
      (exists t, buf = firstn (rp - wp) (skipn wp S) ++ t) /\ ((rp = wp + COPY)%nat \/ rp = length S)
  | PTrunc _ s d wp => d <> s /\ exists S D, has f s S /\ has f d D /\ progress S D (length S) wp
  | PChown _ s d | PChmod _ s d | PStat3 _ s d | PUtime _ s d _ | PEnd (Some (s, d)) => d <> s /\ exists S D, has f s S /\ has f d D /\ done S D
  | POpen2 _ s => exists S, has f s S
  | _ => True
  end.

Lemma has_set f i j n l : j <> i -> has f j l -> has (set_node f i n) j l.
Proof. intros H (m & E & D). exists m. rewrite set_other by exact H. auto. Qed.
Lemma has_new f i n : has (set_node f i n) i (data n).
Proof. exists n. rewrite set_same. auto. Qed.
Lemma has_fun f i l l' : has f i l -> has f i l' -> l = l'.
Proof. intros (n & E & <-) (m & E' & <-). congruence. Qed.
Lemma has_name f g i l : has f i l -> has (by_name f g) i l.
Proof. intros (n & E & <-). destruct (by_name_data f g i n E) as (m & E' & D). exists m. auto. Qed.

Lemma firstn_split A (l : list A) i j : (i <= j)%nat -> firstn j l = firstn i l ++ firstn (j - i) (skipn i l).
Proof.
  intro H. rewrite <- (firstn_skipn i (firstn j l)). rewrite firstn_firstn, Nat.min_l by exact H. f_equal. rewrite skipn_firstn_comm. reflexivity.
Qed.

Lemma firstn_len A (l : list A) k : firstn (length (firstn k l)) l = firstn k l.
Proof.
  rewrite firstn_length. destruct (Nat.le_ge_cases k (length l)) as [H|H]; [rewrite Nat.min_l by exact H; reflexivity|].
  rewrite Nat.min_r by exact H. rewrite firstn_all, firstn_all2 by exact H. reflexivity.
Qed.

Lemma put_first l pos c : (pos <= length l)%nat -> firstn (pos + length c) (put l pos c) = firstn pos l ++ c /\ (pos + length c <= length (put l pos c))%nat.
Proof.
  intro H. unfold put. replace (pos - length l)%nat with O by lia. cbn [repeat app]. rewrite app_assoc.
  assert (L : length (firstn pos l ++ c) = (pos + length c)%nat) by (rewrite app_length, firstn_length; lia).
  split; [rewrite <- L, firstn_app, Nat.sub_diag, firstn_all; cbn; now rewrite app_nil_r|rewrite app_length; lia].
Qed.

Lemma own_inv x y : length buf0 = COPY -> own x y -> inv (fst x) (snd x) -> inv (fst y) (snd y).
Proof.
  intros LB S. destruct S; cbn [fst snd inv]; intro I; auto.
  - exists (data n). exists n. auto.
  - destruct I as [S0 HS]. split; [assumption|]. split; [exact LB|]. exists S0, (data n). split; [exact HS|]. split; [exists n; auto|].
    split; [lia|]. split; [lia|]. exists []. split; [reflexivity|auto].
  - destruct I as [S0 HS]. assert (X : s <> d) by (intros ->; destruct HS as (m & E & _); congruence). split; [congruence|]. split; [exact LB|]. exists S0, [].
    split; [destruct HS as (m & E & D); exists m; cbn [node]; rewrite set_other by exact X; auto|].
    split; [eexists; cbn [node]; rewrite set_same; split; [reflexivity|reflexivity]|]. split; [cbn; lia|]. split; [lia|]. exists []. split; [reflexivity|auto].
  - destruct I as (Ne & Lb & S0 & D & HS & HD & W & Rl & t & Et & Q). assert (S0 = data n) as -> by (eapply has_fun; [exact HS|exists n; auto]).
    destruct Q as [[-> ->]|[-> _]]; [|lia]. rewrite app_nil_r in Et.
    assert (Lc : length (firstn COPY (skipn wp (data n))) = Nat.min COPY (length (data n) - wp)) by (rewrite firstn_length, skipn_length; reflexivity).
    split; [exact Ne|]. split. { rewrite app_length, skipn_length, Lc, Lb. lia. }
    exists (data n), D. split; [exact HS|]. split; [exact HD|]. split; [exact W|]. split; [assumption|]. split; [exact Et|]. pose proof COPY_pos. split; [lia|]. split; [|lia].
    eexists. rewrite Nat.add_comm, Nat.add_sub, firstn_len. reflexivity.
  - destruct I as (Ne & Lb & S0 & D & HS & HD & W & Rl & t & Et & Q). assert (S0 = data n) as -> by (eapply has_fun; [exact HS|exists n; auto]).
    split; [exact Ne|]. exists (data n), D. split; [exact HS|]. split; [exact HD|]. split; [exact W|]. split; [lia|]. assert (rp = length (data n)) as <- by lia. exists t. split; [exact Et|]. destruct Q as [Q|[_ Q]]; auto.
  - destruct I as (Ne & Lb & S0 & D & HS & HD & W & Ws & Et & Rb & (t & Eb) & Q). assert (D = data n) as -> by (eapply has_fun; [exact HD|exists n; auto]).
    split; [exact Ne|]. split; [exact Lb|]. exists S0, (put (data n) wp buf). split; [apply has_set; [congruence|exact HS]|]. split; [exact (has_new f d (Fl (attr n) (put (data n) wp buf)))|].
    destruct (put_first (data n) wp buf W) as [P1 P2]. split; [exact P2|]. split; [lia|]. exists t. rewrite P1, Et. split.
    { rewrite Eb at 1. rewrite app_assoc. f_equal. symmetry. apply firstn_split. lia. }
    assert (Lt : (length t = COPY - (rp - wp))%nat). { rewrite Eb, app_length, firstn_length, skipn_length in Lb. lia. }
    destruct Q as [Q|Q]; [left|right].
    + split; [destruct t; [reflexivity|cbn [length] in Lt; lia]|lia].
    + split; [exact Q|pose proof COPY_pos; lia].
  - destruct I as (Ne & S0 & D & HS & HD & W & _ & t & Et & Q). assert (D = data n) as -> by (eapply has_fun; [exact HD|exists n; auto]). rewrite firstn_all in Et.
    split; [exact Ne|]. exists S0, (cut (data n) pos). split; [apply has_set; [congruence|exact HS]|]. split; [exact (has_new f d (Fl (attr n) (cut (data n) pos)))|].
    exists t. unfold cut. replace (pos - length (data n))%nat with O by lia. cbn [repeat]. rewrite app_nil_r. split; [exact Et|]. destruct Q as [[-> _]|[_ Q]]; [exact COPY_pos|exact Q].
  - destruct I as (Ne & S0 & D & HS & HD & Q). split; [exact Ne|]. exists S0, D. auto using has_name.
  - destruct I as (Ne & S0 & D & HS & HD & Q). split; [exact Ne|]. exists S0, D. auto using has_name.
  - destruct I as (Ne & S0 & D & HS & HD & Q). split; [exact Ne|]. exists S0, D. auto using has_name.
Qed.

Lemma inv_others f f' c : (forall i n, node f i = Some n -> exists n', node f' i = Some n' /\ data n' = data n) -> inv f c -> inv f' c.
Proof.
  intros H I. assert (K : forall i l, has f i l -> has f' i l) by (intros i l (n & E & <-); destruct (H i n E) as (n' & E' & D); exists n'; auto).
  destruct c as [| | | | | | | | | | |[[s d]|]]; cbn [inv] in *; auto.
  1: { destruct I as [S HS]. eauto. }
  1, 2: destruct I as (N1 & N2 & S & D & HS & HD & R); split; [exact N1|]; split; [exact N2|]; exists S, D; auto.
  all: destruct I as (N1 & S & D & HS & HD & R); split; [exact N1|]; exists S, D; auto.
Qed.
Lemma run_inv o x y : length buf0 = COPY -> no_writes o -> crun o x y -> inv (fst x) (snd x) -> inv (fst y) (snd y).
Proof.
  intros LB W R I. induction R as [x|x y z R IH S|x f c f' R IH S]; [exact I| |].
  - exact (own_inv y z LB S (IH I)).
  - cbn [fst snd] in *. apply (inv_others f); [|exact (IH I)]. intros i n E. exact (W f f' i n S E).
Qed.

(** ** A run to the end *)
Lemma loop o a s d : d <> s -> forall k f rp wp buf S nd, node f s = Some S -> node f d = Some nd -> (length (data S) - rp <= k)%nat ->
  exists f' wp', crun o (f, PRead a s d rp wp buf) (f', PTrunc a s d wp') /\ src_is f' = src_is f /\ dst_is f' = dst_is f /\
    (forall i, i <> d -> node f' i = node f i) /\ exists n', node f' d = Some n' /\ attr n' = attr nd.
Proof.
  intros Ne k. induction k as [|k IH]; intros f rp wp buf S nd HS HD L.
  - exists f, wp. split; [apply crun_own; eapply o_read_end; [exact HS|lia]|]. eauto 10.
  - destruct (Nat.lt_ge_cases rp (length (data S))) as [Lt|Ge].
    2:{ exists f, wp. split; [apply crun_own; eapply o_read_end; [exact HS|exact Ge]|]. eauto 10. }
    pose proof (o_read strip u mask newgroup buf0 f a s d rp wp buf S HS Lt) as S1. cbv zeta in S1.
    set (c := firstn COPY (skipn rp (data S))) in *. assert (Lc : (1 <= length c)%nat) by (unfold c; rewrite firstn_length, skipn_length; pose proof COPY_pos; lia).
    set (b1 := c ++ skipn (length c) buf) in *. set (f1 := set_node f d (Fl (attr nd) (put (data nd) wp b1))).
    pose proof (o_write strip u mask newgroup buf0 f a s d (rp + length c)%nat wp b1 nd HD) as S2. fold f1 in S2.
    destruct (IH f1 (rp + length c)%nat (wp + length b1)%nat b1 S (Fl (attr nd) (put (data nd) wp b1))) as (f' & wp' & R & E1 & E2 & E3 & n' & E4 & E5).
    { unfold f1. rewrite set_other by congruence. exact HS. } { apply set_same. } { lia. }
    exists f', wp'. split; [eapply crun_trans; [apply crun_own; exact S1|]; eapply crun_trans; [apply crun_own; exact S2|exact R]|].
    split; [exact E1|]. split; [exact E2|]. split; [intros i Hi; rewrite E3 by exact Hi; apply set_other; exact Hi|]. exists n'. split; [exact E4|exact E5].
Qed.

(** from the open files to the last calls *)
Lemma to_chown o a s d f S nd : d <> s -> node f s = Some S -> node f d = Some nd ->
  exists f', crun o (f, PRead a s d 0 0 buf0) (f', PChown a s d) /\ src_is f' = src_is f /\ dst_is f' = dst_is f /\
    (forall i, i <> d -> node f' i = node f i) /\ exists n', node f' d = Some n' /\ attr n' = attr nd.
Proof.
  intros Ne HS HD. destruct (loop o a s d Ne (length (data S)) f 0%nat 0%nat buf0 S nd HS HD) as (f1 & wp & R & E1 & E2 & E3 & n1 & E4 & E5); [lia|].
  eexists. split; [eapply cr_own; [exact R|apply o_trunc; exact E4]|]. cbn [src_is dst_is set_node]. split; [exact E1|]. split; [exact E2|].
  split; [intros i Hi; rewrite <- E3 by exact Hi; apply (set_other f1 d i _ Hi)|]. eexists. split; [apply (set_same f1 d)|]. exact E5.
Qed.

(** the last calls, on whatever the name stands for *)
Lemma finish o a s d f v nv : dst_is f = Some v -> node f v = Some nv ->
  exists f', crun o (f, PChown a s d) (f', PEnd (Some (s, d))) /\ dst_is f' = Some v /\ (forall i, i <> v -> node f' i = node f i) /\
    node f' v = Some (Fl (Copy_attrs strip u a (attr nv)) (data nv)).
Proof.
  intros Hd Hv.
  set (f1 := by_name f (fun x => fst (sys_chown strip u x (Some (owner a)) (Some (group a))))).
  set (f2 := by_name f1 (fun x => fst (sys_chmod u x (perms a)))).
  assert (D1 : dst_is f1 = Some v) by (unfold f1; rewrite (proj2 (by_name_names _ _)); exact Hd).
  assert (D2 : dst_is f2 = Some v) by (unfold f2; rewrite (proj2 (by_name_names _ _)); exact D1).
  pose proof (by_name_same f (fun x => fst (sys_chown strip u x (Some (owner a)) (Some (group a)))) v nv Hd Hv) as N1. fold f1 in N1.
  pose proof (by_name_same f1 (fun x => fst (sys_chmod u x (perms a))) v _ D1 N1) as N2. fold f2 in N2. cbn [attr data] in N2.
  eexists. split.
  - eapply cr_own; [eapply cr_own; [eapply cr_own; [apply crun_own; apply o_chown|apply o_chmod]|eapply o_stat3; [exact D2|exact N2]]|apply o_utime].
  - fold f1. fold f2. split; [rewrite (proj2 (by_name_names _ _)); exact D2|]. split.
    + intros i Hi. rewrite by_name_other by congruence. unfold f2. rewrite by_name_other by congruence. unfold f1. apply by_name_other. congruence.
    + rewrite (by_name_same _ _ v _ D2 N2). cbn [attr data]. unfold Copy_attrs. reflexivity.
Qed.

(** ** Undisturbed *)
Section Alone.
Variable f0 : fs.
Variables s : nat.
Variable ns : file.
Hypothesis Hs : src_is f0 = Some s.
Hypothesis Hns : node f0 s = Some ns.
Definition first_attrs (d : nat) (x : attrs) : Prop :=
  (dst_is f0 = Some d /\ exists n, node f0 d = Some n /\ x = attr n) \/
  (dst_is f0 = None /\ exists now, x = Attrs (euid u) newgroup (N.ldiff (perms (attr ns) mod 512) mask) now now).
Definition stage (f : fs) (a : attrs) (s' d : nat) (g : attrs -> attrs) : Prop :=
  a = attr ns /\ s' = s /\ dst_is f = Some d /\ exists x n, first_attrs d x /\ node f d = Some n /\ attr n = g x.
Definition ainv (f : fs) (c : pc) : Prop :=
  let chown a := fun x => fst (sys_chown strip u x (Some (owner a)) (Some (group a))) in
  let chmod a := fun x => fst (sys_chmod u (chown a x) (perms a)) in
  match c with
  | PStat1 => f = f0
  | PStat2 a i => f = f0 /\ a = attr ns
  | POpen1 a => f = f0 /\ a = attr ns
  | POpen2 a s' => f = f0 /\ a = attr ns /\ s' = s
  | PRead a s' d _ _ _ | PWrite a s' d _ _ _ | PTrunc a s' d _ | PChown a s' d => stage f a s' d (fun x => x)
  | PChmod a s' d => stage f a s' d (chown a)
  | PStat3 a s' d => stage f a s' d (chmod a)
  | PUtime a s' d sec => stage f a s' d (chmod a) /\ exists n, node f d = Some n /\ sec = fst (atime (attr n))
  | PEnd (Some (s', d)) => stage f (attr ns) s' d (Copy_attrs strip u (attr ns))
  | PEnd None => True
  end.
Lemma stage_name f a s' d g h : stage f a s' d g -> stage (by_name f h) a s' d (fun x => h (g x)).
Proof.
  intros (E1 & E2 & E3 & x & n & F & N & A). split; [exact E1|]. split; [exact E2|]. split; [rewrite (proj2 (by_name_names _ _)); exact E3|].
  exists x. eexists. split; [exact F|]. split; [exact (by_name_same f h d n E3 N)|]. cbn. rewrite A. reflexivity.
Qed.
Lemma own_alone x y : own x y -> ainv (fst x) (snd x) -> ainv (fst y) (snd y).
Proof.
  intro S. destruct S; cbn [fst snd ainv]; cbv zeta; intro I; auto.
  - subst f. split; [reflexivity|]. congruence.
  - destruct I as [-> ->]. repeat split; auto. congruence.
  - destruct I as (-> & -> & ->). repeat split; auto. exists (attr n), n. split; [left; eauto|auto].
  - destruct I as (-> & -> & ->). split; [reflexivity|]. split; [reflexivity|]. split; [reflexivity|]. eexists. eexists. split; [right; split; [assumption|eexists; reflexivity]|]. split; [apply (set_same f0 d)|reflexivity].
  - destruct I as (E1 & E2 & E3 & x & m & F & N & A). split; [exact E1|]. split; [exact E2|]. split; [exact E3|]. exists x. eexists. split; [exact F|]. split; [apply (set_same f d)|]. cbn. congruence.
  - destruct I as (E1 & E2 & E3 & x & m & F & N & A). split; [exact E1|]. split; [exact E2|]. split; [exact E3|]. exists x. eexists. split; [exact F|]. split; [apply (set_same f d)|]. cbn. congruence.
  - exact (stage_name _ _ _ _ _ _ I).
  - exact (stage_name _ _ _ _ _ _ I).
  - split; [exact I|]. destruct I as (_ & _ & E3 & x & m & F & N & A). assert (i = d) as -> by congruence. eauto.
  - destruct I as (_ & _ & E3 & _). congruence.
  - destruct I as ((-> & -> & E3 & x0 & m & F & N & A) & n & N' & ->). split; [reflexivity|]. split; [reflexivity|]. split; [rewrite (proj2 (by_name_names _ _)); exact E3|].
    exists x0. eexists. split; [exact F|]. split; [exact (by_name_same f _ d m E3 N)|]. cbn [attr]. assert (n = m) as -> by congruence. unfold Copy_attrs. rewrite A. reflexivity.
Qed.
Lemma run_alone x y : crun nobody x y -> ainv (fst x) (snd x) -> ainv (fst y) (snd y).
Proof. intros R I. induction R as [x|x y z R IH S|x f c f' R IH []]; [exact I|]. exact (own_alone y z S (IH I)). Qed.
End Alone.
End Copy.
