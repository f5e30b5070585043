(** C143: a copy can be read by those only who can read the source. *)
From Verif Require Import Base S_Attr S_Secret M_Attr M_Secret Prop_Attr.
Open Scope N_scope.

(** The nine bits are not changed by chown. *)
Definition keeps_rwx (strip : N -> N) : Prop := forall p, rwx (strip p) = rwx p.

Lemma rwx_bit p i : i < 9 -> N.testbit (rwx p) i = N.testbit p i.
Proof. intro H. unfold rwx. change 512 with (2 ^ 9). apply N.mod_pow2_bits_low. exact H. Qed.
Lemma rwx_bits p q i : rwx p = rwx q -> i < 9 -> N.testbit p i = N.testbit q i.
Proof. intros E H. rewrite <- (rwx_bit p i H), <- (rwx_bit q i H), E. reflexivity. Qed.
Lemma may_rwx v b o g p q x y x' y' : b < 3 -> rwx p = rwx q -> may b v (Attrs o g p x y) = may b v (Attrs o g q x' y').
Proof. intros Hb E. unfold may. cbn [owner group perms]. rewrite !(rwx_bits p q _ E) by lia. reflexivity. Qed.

(** In the end the attributes are those of C103. *)
Theorem C143_same : forall strip u mask g src dest now l, Copy_moments strip u mask g src dest now = Some l ->
  exists d0, hd_error l = Some d0 /\ last l d0 = Copy_attrs strip u src d0 /\ match dest with Some d => d0 = d | None => owner d0 = euid u /\ group d0 = g end.
Proof.
  intros strip u mask g src dest now l. unfold Copy_moments. destruct (may 2 u src); [|discriminate]. destruct (open_dest u mask g src dest now) as [d0|] eqn:O; [|discriminate]. intro E. injection E as <-. exists d0. split; [reflexivity|]. split; [reflexivity|].
  unfold open_dest in O. destruct dest as [d|]; [destruct (may 1 u d); [|discriminate]|]; injection O as <-; [reflexivity|split; reflexivity].
Qed.

(** Whatever the destination was: when root has copied a file, exactly those can read the copy who
    can read the source. *)
Theorem C143_root : forall strip u mask g src dest now l, euid u = 0 -> perms src < 4096 -> Copy_moments strip u mask g src dest now = Some l ->
  forall d v, may_read v (last l d) = may_read v src.
Proof.
  intros strip u mask g src dest now l R P E d v. unfold Copy_moments in E. destruct (may 2 u src); [|discriminate]. destruct (open_dest u mask g src dest now) as [d0|]; [|discriminate]. injection E as <-.
  cbn [last]. unfold sys_chown, sys_chmod, sys_utimes. rewrite (is_root u R). cbn [orb fst owner group perms]. rewrite N.mod_small by exact P. destruct src. apply may_rwx; [lia|reflexivity].
Qed.

(** What the steps do to a file that belongs to the copying user or, if that is root, to anybody. *)
Lemma moments_shape strip u d0 src : keeps_rwx strip -> euid u = 0 \/ euid u = owner d0 ->
  let d1 := fst (sys_chown strip u d0 (Some (owner src)) (Some (group src))) in
  let d2 := fst (sys_chmod u d1 (perms src)) in
  let d3 := fst (sys_utimes u d2 (fst (atime d2), 0) (fst (mtime src), 0)) in
  ((owner d1 = owner src /\ group d1 = group src) \/ (owner d1 = owner d0 /\ group d1 = group d0)) /\ rwx (perms d1) = rwx (perms d0) /\
  owner d2 = owner d1 /\ group d2 = group d1 /\ rwx (perms d2) = rwx (perms src) /\ owner d3 = owner d2 /\ group d3 = group d2 /\ perms d3 = perms d2.
Proof.
  intros K O d1 d2 d3.
  assert (B1 : root u || (euid u =? owner d1) = true /\ ((owner d1 = owner src /\ group d1 = group src) \/ (owner d1 = owner d0 /\ group d1 = group d0)) /\ rwx (perms d1) = rwx (perms d0)).
  { unfold d1, sys_chown. destruct (root u) eqn:Q; cbn [orb].
    - cbn [fst owner group perms]. split; [reflexivity|]. split; [left; split; reflexivity|apply K].
    - assert (Ow : euid u = owner d0) by (destruct O as [X|X]; [rewrite (is_root u X) in Q; discriminate|exact X]).
      destruct ((euid u =? owner d0) && (owner src =? owner d0) && ((group src =? group d0) || member u (group src))) eqn:B; cbn [fst owner group perms].
      + split; [|split; [left; split; reflexivity|apply K]]. apply andb_true_iff in B. destruct B as [B _]. apply andb_true_iff in B. destruct B as [_ B]. apply N.eqb_eq in B. rewrite B, Ow. apply N.eqb_refl.
      + split; [rewrite Ow; apply N.eqb_refl|]. split; [right; split; reflexivity|reflexivity]. }
  destruct B1 as (B1 & S1 & P1). split; [exact S1|]. split; [exact P1|].
  assert (E2 : owner d2 = owner d1 /\ group d2 = group d1 /\ rwx (perms d2) = rwx (perms src)).
  { unfold d2, sys_chmod. rewrite B1. cbn [fst owner group perms]. split; [reflexivity|]. split; [reflexivity|].
    destruct (root u || member u (group d1)); rewrite ?clear10_rwx; apply rwx_mod. }
  destruct E2 as (O2 & G2 & P2). repeat (split; [assumption|]). unfold d3, sys_utimes. rewrite O2, B1. cbn [fst owner group perms]. repeat split; congruence.
Qed.

(** For a new file: at no moment anybody else can read it who cannot read the source, if the rights
    of the source are usual ones and its group is the one new files get, or can do no more than
    others. *)
Theorem C143_fresh : forall strip u mask g src now l, keeps_rwx strip -> usual (perms src) ->
  (N.testbit (perms src) 5 = true -> N.testbit (perms src) 2 = true) \/ group src = g ->
  Copy_moments strip u mask g src None now = Some l -> forall m, In m l -> ~ leak u src m.
Proof.
  intros strip u mask g src now l K (U1 & U2) Gr E m I (v & Nv & Rm & Rs). unfold Copy_moments in E. destruct (may 2 u src); [|discriminate]. cbn [open_dest] in E.
  set (d0 := Attrs (euid u) g (N.ldiff (perms src mod 512) mask) now now) in *. pose proof (moments_shape strip u d0 src K (or_intror eq_refl)) as Sh. cbv zeta in E, Sh.
  set (d1 := fst (sys_chown strip u d0 (Some (owner src)) (Some (group src)))) in *. set (d2 := fst (sys_chmod u d1 (perms src))) in *. set (d3 := fst (sys_utimes u d2 (fst (atime d2), 0) (fst (mtime src), 0))) in *.
  injection E as <-. destruct Sh as (S1 & P1 & O2 & G2 & P2 & O3 & G3 & P3).
  assert (Sub0 : forall i, i < 9 -> N.testbit (perms d0) i = true -> N.testbit (perms src) i = true).
  { intros i Hi. unfold d0. cbn [perms]. rewrite N.ldiff_spec. intro X. apply andb_true_iff in X. destruct X as [X _]. rewrite <- (rwx_bit (perms src) i Hi). exact X. }
  assert (Sh : ((owner m = owner src /\ group m = group src) \/ (owner m = euid u /\ group m = g)) /\ (forall i, i < 9 -> N.testbit (perms m) i = true -> N.testbit (perms src) i = true)).
  { cbn [In] in I. destruct I as [<-|[<-|[<-|[<-|[]]]]].
    - split; [right; split; reflexivity|exact Sub0].
    - split; [exact S1|]. intros i Hi X. apply (Sub0 i Hi). rewrite <- X. symmetry. apply rwx_bits; assumption.
    - rewrite O2, G2. split; [exact S1|]. intros i Hi X. rewrite <- X. symmetry. apply rwx_bits; assumption.
    - rewrite O3, G3, P3, O2, G2. split; [exact S1|]. intros i Hi X. rewrite <- X. symmetry. apply rwx_bits; assumption. }
  destruct Sh as (Who & Sub). unfold may in Rm, Rs. destruct (euid v =? 0); [discriminate|]. change (6 + 2) with 8 in *. change (3 + 2) with 5 in *.
  assert (Top : N.testbit (perms m) 2 = true \/ N.testbit (perms m) 5 = true -> N.testbit (perms src) 8 = true).
  { intros [X|X]; [apply U2, U1, Sub|apply U2, Sub]; try exact X; lia. }
  destruct Who as [[Wo Wg]|[Wo Wg]].
  - rewrite Wo, Wg in Rm. destruct (euid v =? owner src); [rewrite (Sub 8) in Rs by (lia || exact Rm); discriminate|].
    destruct (member v (group src)); [rewrite (Sub 5) in Rs by (lia || exact Rm)|rewrite (Sub 2) in Rs by (lia || exact Rm)]; discriminate.
  - rewrite Wo, Wg in Rm. destruct (N.eqb_spec (euid v) (euid u)); [contradiction|]. destruct (euid v =? owner src).
    + rewrite Top in Rs by (destruct (member v g); auto). discriminate.
    + destruct Gr as [Gr|Gr].
      * assert (Two : N.testbit (perms src) 2 = true) by (destruct (member v g); [apply Gr, Sub; [lia|exact Rm]|apply Sub; [lia|exact Rm]]).
        destruct (member v (group src)); [rewrite (U1 Two) in Rs|rewrite Two in Rs]; discriminate.
      * rewrite Gr in Rs. destruct (member v g); [rewrite (Sub 5) in Rs by (lia || exact Rm)|rewrite (Sub 2) in Rs by (lia || exact Rm)]; discriminate.
Qed.

(** Over a file with the same owner and group that gives no rights the source does not give. *)
Theorem C143_over : forall strip u mask g src d now l, keeps_rwx strip -> euid u = 0 \/ euid u = owner d -> owner d = owner src -> group d = group src ->
  (forall i, i < 9 -> N.testbit (perms d) i = true -> N.testbit (perms src) i = true) ->
  Copy_moments strip u mask g src (Some d) now = Some l -> forall m, In m l -> ~ leak u src m.
Proof.
  intros strip u mask g src d now l K Ou Eo Eg Sub0 E m I (v & Nv & Rm & Rs). unfold Copy_moments in E. destruct (may 2 u src); [|discriminate]. cbn [open_dest] in E. destruct (may 1 u d); [|discriminate].
  pose proof (moments_shape strip u d src K Ou) as Sh. cbv zeta in E, Sh.
  set (d1 := fst (sys_chown strip u d (Some (owner src)) (Some (group src)))) in *. set (d2 := fst (sys_chmod u d1 (perms src))) in *. set (d3 := fst (sys_utimes u d2 (fst (atime d2), 0) (fst (mtime src), 0))) in *.
  injection E as <-. destruct Sh as (S1 & P1 & O2 & G2 & P2 & O3 & G3 & P3).
  assert (S1' : owner d1 = owner src /\ group d1 = group src) by (destruct S1 as [X|[X Y]]; [exact X|split; congruence]).
  assert (Sh : (owner m = owner src /\ group m = group src) /\ (forall i, i < 9 -> N.testbit (perms m) i = true -> N.testbit (perms src) i = true)).
  { cbn [In] in I. destruct I as [<-|[<-|[<-|[<-|[]]]]].
    - split; [split; assumption|exact Sub0].
    - split; [exact S1'|]. intros i Hi X. apply (Sub0 i Hi). rewrite <- X. symmetry. apply rwx_bits; assumption.
    - rewrite O2, G2. split; [exact S1'|]. intros i Hi X. rewrite <- X. symmetry. apply rwx_bits; assumption.
    - rewrite O3, G3, P3, O2, G2. split; [exact S1'|]. intros i Hi X. rewrite <- X. symmetry. apply rwx_bits; assumption. }
  destruct Sh as ([Wo Wg] & Sub). unfold may in Rm, Rs. destruct (euid v =? 0); [discriminate|]. change (6 + 2) with 8 in *. change (3 + 2) with 5 in *. rewrite Wo, Wg in Rm.
  destruct (euid v =? owner src); [rewrite (Sub 8) in Rs by (lia || exact Rm); discriminate|].
  destruct (member v (group src)); [rewrite (Sub 5) in Rs by (lia || exact Rm)|rewrite (Sub 2) in Rs by (lia || exact Rm)]; discriminate.
Qed.

(** A stranger: neither root nor one of the owners, in the groups [f]. *)
Definition stranger (u : user) (a b : attrs) (f : N -> bool) : user := User (1 + euid u + owner a + owner b) f.
Lemma stranger_may u a b f bit c : owner c = owner a \/ owner c = owner b -> may bit (stranger u a b f) c = if f (group c) then N.testbit (perms c) (3 + bit) else N.testbit (perms c) bit.
Proof.
  intro H. unfold may, stranger. cbn [euid member]. replace (1 + euid u + owner a + owner b =? 0) with false by (symmetry; apply N.eqb_neq; lia).
  replace (1 + euid u + owner a + owner b =? owner c) with false by (symmetry; apply N.eqb_neq; destruct H; lia). reflexivity.
Qed.
Lemma stranger_other u a b f : euid (stranger u a b f) <> euid u.
Proof. unfold stranger. cbn [euid]. lia. Qed.

(** Over a file that everybody can read, the contents of a source that not everybody can read can
    be read by everybody until the rights are set, whoever copies; *)
Theorem C143_over_refuted : forall strip u mask g src d now, may_read u src = true -> may_write u d = true -> N.testbit (perms d) 2 = true -> N.testbit (perms src) 2 = false ->
  exists l m, Copy_moments strip u mask g src (Some d) now = Some l /\ In m l /\ leak u src m.
Proof.
  intros strip u mask g src d now Ru Wu Dd Ds. unfold Copy_moments. rewrite Ru. cbn [open_dest]. rewrite Wu.
  eexists. exists d. split; [reflexivity|]. split; [left; reflexivity|]. exists (stranger u src d (fun _ => false)). split; [apply stranger_other|]. rewrite !stranger_may by auto. split; assumption.
Qed.
(** a new file can be read by the group new files get, if the group of the source can read that one,
    and for copies by somebody who is neither root nor the owner of the source it stays that way; *)
Theorem C143_group_refuted : forall strip u mask g src now, may_read u src = true -> group src <> g -> N.testbit (perms src) 5 = true -> N.testbit (perms src) 2 = false -> N.testbit mask 5 = false ->
  exists l, Copy_moments strip u mask g src None now = Some l /\
  (exists m, In m l /\ leak u src m) /\
  (euid u <> 0 -> euid u <> owner src -> leak u src (last l src)).
Proof.
  intros strip u mask g src now Ru Gr B5 B2 Mk. unfold Copy_moments. rewrite Ru. cbn [open_dest].
  set (d0 := Attrs (euid u) g (N.ldiff (perms src mod 512) mask) now now) in *. eexists. split; [reflexivity|]. set (v := stranger u src d0 (N.eqb g)).
  assert (Vs : may 2 v src = false). { unfold v. rewrite stranger_may by auto. destruct (N.eqb_spec g (group src)); [congruence|exact B2]. }
  split.
  - exists d0. split; [left; reflexivity|]. exists v. split; [apply stranger_other|]. split; [|exact Vs]. unfold v. rewrite stranger_may by auto. cbn [group d0]. rewrite N.eqb_refl. cbn [perms d0].
    rewrite N.ldiff_spec. change (3 + 2) with 5. fold (rwx (perms src)). rewrite rwx_bit by lia. rewrite B5, Mk. reflexivity.
  - intros Nr No. exists v. split; [apply stranger_other|]. split; [|exact Vs]. cbn [last].
    assert (C1 : fst (sys_chown strip u d0 (Some (owner src)) (Some (group src))) = d0).
    { unfold sys_chown. rewrite (not_root u Nr). cbn [orb owner d0]. replace (owner src =? euid u) with false by (symmetry; apply N.eqb_neq; congruence). rewrite andb_false_r. reflexivity. }
    rewrite C1. unfold sys_chmod, sys_utimes. rewrite (not_root u Nr). cbn [orb owner d0]. rewrite N.eqb_refl. cbn [fst owner orb]. rewrite N.eqb_refl. cbn [fst].
    unfold v. rewrite stranger_may by (right; reflexivity). cbn [group perms]. rewrite N.eqb_refl. change (3 + 2) with 5.
    rewrite (rwx_bits _ (perms src) 5); [exact B5| |lia]. destruct (member u (group d0)); rewrite ?clear10_rwx; apply rwx_mod.
Qed.
(** and over a file that belongs to somebody else its rights stay what they were. *)
Theorem C143_kept_refuted : forall strip u mask g src d now, may_read u src = true -> may_write u d = true -> euid u <> 0 -> euid u <> owner d -> N.testbit (perms d) 2 = true -> N.testbit (perms src) 2 = false ->
  exists l, Copy_moments strip u mask g src (Some d) now = Some l /\ last l src = d /\ leak u src (last l src).
Proof.
  intros strip u mask g src d now Ru Wu Nr No Dd Ds. unfold Copy_moments. rewrite Ru. cbn [open_dest]. rewrite Wu. eexists. split; [reflexivity|].
  assert (L : last [d; fst (sys_chown strip u d (Some (owner src)) (Some (group src)));
    fst (sys_chmod u (fst (sys_chown strip u d (Some (owner src)) (Some (group src)))) (perms src));
    fst (sys_utimes u (fst (sys_chmod u (fst (sys_chown strip u d (Some (owner src)) (Some (group src)))) (perms src)))
      (fst (atime (fst (sys_chmod u (fst (sys_chown strip u d (Some (owner src)) (Some (group src)))) (perms src)))), 0) (fst (mtime src), 0))] src = d).
  { assert (Q : euid u =? owner d = false) by (apply N.eqb_neq; exact No). cbn [last]. unfold sys_chown, sys_chmod, sys_utimes. rewrite (not_root u Nr), !Q. cbn [orb andb fst]. rewrite !Q. cbn [orb andb fst]. rewrite !Q. reflexivity. }
  split; [exact L|]. rewrite L. exists (stranger u src d (fun _ => false)). split; [apply stranger_other|]. rewrite !stranger_may by auto. split; assumption.
Qed.

(** User 5 copies a file 0640 of their own, group 7; new files get group 8, umask 022. *)
Example C143_ex :
  let u := User 5 (fun g => (g =? 7) || (g =? 8)) in let now := (9, 0) in
  let src := Attrs 5 7 416 (1, 0) (2, 0) in
  Copy_moments (fun p => p) u 18 8 src None now = Some [Attrs 5 8 416 now now; Attrs 5 7 416 now now; Attrs 5 7 416 now now; Attrs 5 7 416 (9, 0) (2, 0)] /\
  may_read (User 6 (N.eqb 8)) (Attrs 5 8 416 now now) = true /\ may_read (User 6 (N.eqb 8)) src = false /\
  Copy_moments (fun p => p) u 18 7 src None now = Some [Attrs 5 7 416 now now; Attrs 5 7 416 now now; Attrs 5 7 416 now now; Attrs 5 7 416 (9, 0) (2, 0)] /\
  Copy_moments (fun p => p) u 18 7 src (Some (Attrs 6 7 420 now now)) now = None.
Proof. vm_compute. repeat split; reflexivity. Qed.

Print Assumptions C143_same.
Print Assumptions C143_root.
Print Assumptions C143_fresh.
Print Assumptions C143_over.
Print Assumptions C143_over_refuted.
Print Assumptions C143_group_refuted.
Print Assumptions C143_kept_refuted.
