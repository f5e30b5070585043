(** Fixed-size vectors refine variables holding sequences. *)
From Verif Require Import Base S_Seq P_Dll S_Vec M_Vec.

Section Vec.
Context {T : Type}.
Variable d : T.

(** Object [o] holds [l]: NULL for an empty sequence, or a live block. *)
Definition holds (h : heap T) (o : obj) (l : list T) : Prop :=
  let '(p, n) := o in
  n = length l /\ ((p = 0 /\ l = []) \/ (p <> 0 /\ blk h p = Some l)).

Record R (w : world T) (s : store T) : Prop := {
  r_obj : forall x, match fst w x, s x with
                    | Some o, Some l => holds (snd w) o l
                    | None, None => True
                    | _, _ => False end;
  r_inj : forall x y p n m, fst w x = Some (p, n) -> fst w y = Some (p, m) -> p <> 0 -> x = y;
  r_live : forall p l, blk (snd w) p = Some l -> p <> 0 /\ p < nxt (snd w) /\ exists x n, fst w x = Some (p, n);
  r_nxt : nxt (snd w) <> 0 }.

Lemma init_R : R winit (vempty T).
Proof. constructor; cbn; auto; try discriminate. Qed.

Lemma st_ok p i v (h : heap T) l : blk h p = Some l -> i < length l ->
  st p i v h = Ok (Heap (fupd (blk h) p (Some (upd l i v))) (nxt h)).
Proof. intros E L. unfold st. rewrite E, wr_in by auto. reflexivity. Qed.

(** The copy loop. *)
Lemma copy_loop_ok n : forall x p q (h : heap T) done rest l,
  p <> q -> blk h p = Some (done ++ rest) -> blk h q = Some l -> length rest = n -> length done = x ->
  length l = x + n -> done = firstn x l ->
  exists h', copy_loop n x p q h = Ok h' /\ nxt h' = nxt h /\ blk h' p = Some l /\
    forall r, r <> p -> blk h' r = blk h r.
Proof.
  induction n as [|n IH]; intros x p q h done rest l NE P Q Lr Ld Ll D.
  - exists h. destruct rest; [|discriminate]. rewrite app_nil_r in P. cbn. split; auto. split; auto. split; auto.
    rewrite P, D. f_equal. apply firstn_all2. lia.
  - destruct rest as [|e rest]; [discriminate|]. cbn [copy_loop]. unfold ld. rewrite Q.
    destruct (nth_error l x) as [v|] eqn:E; [|apply nth_error_None in E; lia].
    unfold rd. rewrite E. cbn [bind]. rewrite (st_ok p x v h _ P) by (rewrite app_length; cbn; lia). cbn [bind].
    rewrite upd_app_r by lia. rewrite Ld, Nat.sub_diag. cbn [upd].
    destruct (IH (S x) p q (Heap (fupd (blk h) p (Some (done ++ v :: rest))) (nxt h)) (done ++ [v]) rest l NE)
      as (h' & E1 & E2 & E3 & E4).
    + cbn. rewrite fupd_same. now rewrite <- app_assoc.
    + cbn. rewrite fupd_other by auto. exact Q.
    + cbn in Lr. lia.
    + rewrite app_length. cbn. lia.
    + lia.
    + rewrite D. clear - E. revert x E. induction l as [|a l IH]; intros [|x] E; cbn in *; try discriminate.
      * now inversion E.
      * f_equal. now apply IH.
    + exists h'. split; auto. split; auto. split; auto. intros r Hr. rewrite E4 by auto. cbn. now apply fupd_other.
Qed.

Lemma holds_size h o l : holds h o l -> snd o = length l.
Proof. destruct o. now intros [-> _]. Qed.

Lemma copy_into p q n (h : heap T) l0 l :
  n = length l -> length l0 = n -> p <> q -> (n = 0 \/ blk h p = Some l0) -> (l = [] \/ blk h q = Some l) ->
  exists h', copy_loop n 0 p q h = Ok h' /\ nxt h' = nxt h /\ (n <> 0 -> blk h' p = Some l) /\
    (forall r, r <> p -> blk h' r = blk h r) /\ (n = 0 -> h' = h).
Proof.
  intros E L NE P Q. destruct n as [|n].
  - exists h. cbn. repeat split; auto; lia.
  - destruct P as [P|P]; [discriminate|]. destruct Q as [->|Q]; [discriminate|].
    destruct (copy_loop_ok (S n) 0 p q h [] l0 l NE) as (h' & E1 & E2 & E3 & E4); auto.
    exists h'. repeat split; auto. discriminate.
Qed.

(** Adding an object with a fresh block. *)
Lemma R_fresh o h s x n l h' :
  R (o, h) s -> o x = None -> length l = n ->
  blk h' (nxt h) = Some l -> nxt h' = S (nxt h) -> (forall r, r <> nxt h -> blk h' r = blk h r) ->
  R (fupd o x (Some (nxt h, n)), h') (fupd s x (Some l)).
Proof.
  intros [Ho Hi Hl Hn] Hx L B N O. cbn [fst snd] in *.
  assert (NP : forall y m, o y <> Some (nxt h, m)).
  { intros y m E. specialize (Ho y). rewrite E in Ho. destruct (s y) as [ly|]; [|contradiction].
    destruct Ho as [_ [[F _]|[_ F]]]; [lia|]. apply Hl in F. lia. }
  constructor; cbn [fst snd].
  - intros y. destruct (Nat.eq_dec y x) as [->|Hy].
    + rewrite !fupd_same. split; auto.
    + rewrite !fupd_other by auto. specialize (Ho y). destruct (o y) as [[p m]|] eqn:Ey, (s y) as [ly|]; auto.
      destruct Ho as [Em [F|[F1 F2]]]; split; auto. right. split; auto. rewrite O; auto. intros ->. eapply NP; eauto.
  - intros y z p m k Hy Hz P. destruct (Nat.eq_dec y x) as [->|Yx], (Nat.eq_dec z x) as [->|Zx]; auto.
    + rewrite fupd_same in Hy. rewrite fupd_other in Hz by auto. inversion Hy; subst. now apply NP in Hz.
    + rewrite fupd_same in Hz. rewrite fupd_other in Hy by auto. inversion Hz; subst. now apply NP in Hy.
    + rewrite fupd_other in Hy, Hz by auto. eapply Hi; eauto.
  - intros p lp E. destruct (Nat.eq_dec p (nxt h)) as [->|P].
    + split; [auto|]. split; [lia|]. exists x, n. now rewrite fupd_same.
    + rewrite O in E by auto. destruct (Hl p lp E) as (A & B' & y & m & C). split; auto. split; [lia|].
      exists y, m. rewrite fupd_other; auto. congruence.
  - lia.
Qed.

Lemma new_sim x n (w : world T) s : R w s -> s x = None ->
  exists w', m_new d x n w = Ok w' /\ R w' (fupd s x (Some (repeat d n))).
Proof.
  destruct w as [o h]. intros H Hx. unfold m_new, alloc. eexists. split; [reflexivity|].
  pose proof (r_obj _ _ H x) as Ox. cbn in Ox. rewrite Hx in Ox. destruct (o x) eqn:Eo; [contradiction|].
  eapply R_fresh; eauto; cbn; auto.
  - apply repeat_length.
  - apply fupd_same.
  - intros r Hr. now apply fupd_other.
Qed.

Lemma copy_sim x y (w : world T) s l : R w s -> s x = None -> s y = Some l ->
  exists w', m_copy d x y w = Ok w' /\ R w' (fupd s x (Some l)).
Proof.
  destruct w as [o h]. intros H Hx Hy. unfold m_copy, alloc.
  pose proof (r_obj _ _ H x) as Ox. pose proof (r_obj _ _ H y) as Oy. cbn [fst snd] in *. rewrite Hx in Ox. rewrite Hy in Oy.
  destruct (o x) eqn:Ex; [contradiction|]. destruct (o y) as [[q n]|] eqn:Ey; [|contradiction].
  destruct Oy as [En Q].
  assert (NE : nxt h <> q).
  { destruct Q as [[-> _]|[_ Q]]; [apply (r_nxt _ _ H)|]. apply (r_live _ _ H) in Q. cbn in Q. lia. }
  destruct (copy_into (nxt h) q n (Heap (fupd (blk h) (nxt h) (Some (repeat d n))) (S (nxt h))) (repeat d n) l)
    as (h' & E1 & E2 & E3 & E4 & E5); auto.
  - apply repeat_length.
  - right. cbn. apply fupd_same.
  - destruct Q as [[_ ->]|[_ Q]]; [now left|right]. cbn. rewrite fupd_other; auto.
  - rewrite E1. cbn [bind]. eexists. split; [reflexivity|]. eapply R_fresh; eauto.
    + destruct n as [|n].
      * rewrite E5 by auto. cbn. rewrite fupd_same. destruct l; [reflexivity|discriminate].
      * now apply E3.
    + intros r Hr. rewrite E4 by auto. cbn. now apply fupd_other.
Qed.

(** Removing an object (and its block if it has one). *)
Lemma R_remove o h s x p n l h' :
  R (o, h) s -> o x = Some (p, n) -> s x = Some l -> nxt h' = nxt h ->
  (p <> 0 -> blk h' p = None) -> (forall r, r <> p -> blk h' r = blk h r) -> (p = 0 -> h' = h) ->
  R (fupd o x None, h') (fupd s x None).
Proof.
  intros [Ho Hi Hl Hn] Hx Hs N B O Z. cbn [fst snd] in *. constructor; cbn [fst snd].
  - intros y. destruct (Nat.eq_dec y x) as [->|Hy]; [now rewrite !fupd_same|].
    rewrite !fupd_other by auto. specialize (Ho y). destruct (o y) as [[q m]|] eqn:Ey, (s y) as [ly|]; auto.
    destruct Ho as [Em [F|[F1 F2]]]; split; auto. right. split; auto. rewrite O; auto. intros ->. apply Hy. eapply Hi; eauto.
  - intros y z q m k Hy Hz P. destruct (Nat.eq_dec y x) as [->|Yx]; [now rewrite fupd_same in Hy|].
    destruct (Nat.eq_dec z x) as [->|Zx]; [now rewrite fupd_same in Hz|].
    rewrite fupd_other in Hy, Hz by auto. eapply Hi; eauto.
  - intros q lq E. rewrite N. destruct (Nat.eq_dec q p) as [->|P].
    + destruct (Nat.eq_dec p 0) as [->|P]; [|rewrite B in E by auto; discriminate].
      rewrite Z in E by auto. apply Hl in E. lia.
    + rewrite O in E by auto. destruct (Hl q lq E) as (A & B' & y & m & C). split; auto. split; auto.
      exists y, m. rewrite fupd_other; auto. congruence.
  - lia.
Qed.

Lemma dealloc_sim o h s x p n l : R (o, h) s -> o x = Some (p, n) -> s x = Some l ->
  exists h', (if p =? 0 then Ok h else dealloc p h) = Ok h' /\ nxt h' = nxt h /\
    (p <> 0 -> blk h' p = None) /\ (forall r, r <> p -> blk h' r = blk h r) /\ (p = 0 -> h' = h).
Proof.
  intros H Hx Hs. pose proof (r_obj _ _ H x) as Ho. cbn in Ho. rewrite Hx, Hs in Ho. destruct Ho as [_ Ho].
  destruct (Nat.eqb_spec p 0) as [->|P].
  - exists h. repeat split; auto. lia.
  - destruct Ho as [[F _]|[_ F]]; [contradiction|]. unfold dealloc. rewrite F. eexists. split; [reflexivity|]. cbn.
    repeat split; auto. + intros _. apply fupd_same. + intros r Hr. now apply fupd_other. + lia.
Qed.

Lemma delete_sim x (w : world T) s l : R w s -> s x = Some l ->
  exists w', m_delete x w = Ok w' /\ R w' (fupd s x None).
Proof.
  destruct w as [o h]. intros H Hx. unfold m_delete.
  pose proof (r_obj _ _ H x) as Ox. cbn [fst snd] in Ox. rewrite Hx in Ox. destruct (o x) as [[p n]|] eqn:Ex; [|contradiction].
  destruct (dealloc_sim o h s x p n l H Ex Hx) as (h' & E & N & B & O & Z). rewrite E. cbn [bind]. eexists. split; [reflexivity|].
  eapply R_remove; eauto.
Qed.

(** Replacing the contents of an object's own block. *)
Lemma R_change o h s x p n l l' h' :
  R (o, h) s -> o x = Some (p, n) -> s x = Some l -> length l' = length l -> nxt h' = nxt h ->
  (p <> 0 -> blk h' p = Some l') -> (forall r, r <> p -> blk h' r = blk h r) -> (p = 0 -> h' = h) ->
  R (o, h') (fupd s x (Some l')).
Proof.
  intros [Ho Hi Hl Hn] Hx Hs L N B O Z. cbn [fst snd] in *. constructor; cbn [fst snd]; auto.
  - intros y. destruct (Nat.eq_dec y x) as [->|Hy].
    + rewrite fupd_same, Hx. specialize (Ho x). rewrite Hx, Hs in Ho. destruct Ho as [-> Ho]. split; auto.
      destruct Ho as [[-> ->]|[P _]]; [left; split; auto; now destruct l'|right; auto].
    + rewrite !fupd_other by auto. specialize (Ho y). destruct (o y) as [[q m]|] eqn:Ey, (s y) as [ly|]; auto.
      destruct Ho as [Em [F|[F1 F2]]]; split; auto. right. split; auto. rewrite O; auto. intros ->. apply Hy. eapply Hi; eauto.
  - intros q lq E. rewrite N. destruct (Nat.eq_dec q p) as [->|P].
    + destruct (Nat.eq_dec p 0) as [->|P]; [rewrite Z in E by auto; apply Hl in E; lia|].
      specialize (Ho x). rewrite Hx, Hs in Ho. destruct Ho as [_ [[F _]|[_ F]]]; [contradiction|]. destruct (Hl p l F) as (A & B' & C).
      repeat split; auto.
    + rewrite O in E by auto. eapply Hl; eauto.
  - lia.
Qed.

Lemma write_sim x i v (w : world T) s l : R w s -> s x = Some l -> i < length l ->
  exists w', m_write x i v w = Ok w' /\ R w' (fupd s x (Some (upd l i v))).
Proof.
  destruct w as [o h]. intros H Hx Hi. unfold m_write.
  pose proof (r_obj _ _ H x) as Ox. cbn [fst snd] in Ox. rewrite Hx in Ox. destruct (o x) as [[p n]|] eqn:Ex; [|contradiction].
  destruct Ox as [-> [[_ ->]|[P B]]]; [cbn in Hi; lia|].
  rewrite (st_ok p i v h l) by auto. cbn [bind]. eexists. split; [reflexivity|].
  eapply R_change; eauto; cbn; auto.
  - apply upd_length.
  - intros _. apply fupd_same.
  - intros r Hr. now apply fupd_other.
  - contradiction.
Qed.

(** Two related worlds with the same objects as far as [R] can see. *)
Lemma R_ext w s s' : (forall x, s x = s' x) -> R w s -> R w s'.
Proof.
  intros E [Ho Hi Hl Hn]. constructor; auto. intros x. rewrite <- E. apply Ho.
Qed.
Lemma R_ext_o o o' h s : (forall x, o x = o' x) -> R (o, h) s -> R (o', h) s.
Proof.
  intros E [Ho Hi Hl Hn]. cbn [fst snd] in *. constructor; cbn [fst snd]; auto.
  - intros x. rewrite <- E. apply Ho.
  - intros x y p n m. rewrite <- !E. apply Hi.
  - intros p l B. destruct (Hl p l B) as (A & C & x & n & D). repeat split; auto. exists x, n. now rewrite <- E.
Qed.

Lemma assign_sim zn x y (w : world T) s lx l : R w s -> s x = Some lx -> s y = Some l ->
  exists w', m_assign d zn x y w = Ok w' /\ R w' (fupd s x (Some l)).
Proof.
  destruct w as [o h]. intros H Hx Hy. unfold m_assign.
  pose proof (r_obj _ _ H x) as Ox. pose proof (r_obj _ _ H y) as Oy. cbn [fst snd] in *. rewrite Hx in Ox. rewrite Hy in Oy.
  destruct (o x) as [[p n]|] eqn:Ex; [|contradiction]. destruct (o y) as [[q m]|] eqn:Ey; [|contradiction].
  destruct (Nat.eqb_spec x y) as [->|NE].
  { eexists. split; [reflexivity|]. rewrite Hx in Hy. inversion Hy; subst lx. apply R_ext with s; auto.
    intros z. destruct (Nat.eq_dec z y) as [->|Z]; [now rewrite fupd_same|now rewrite fupd_other]. }
  assert (Ox' := Ox). destruct Ox as [En P]. destruct Oy as [Em Q].
  assert (PQ : p <> 0 -> p <> q).
  { intros P0 ->. apply NE. eapply (r_inj _ _ H); cbn; eauto. }
  destruct (Nat.eqb_spec n m) as [E|D].
  - cbn [bind].
    destruct m as [|m].
    + cbn [copy_loop bind]. destruct l; [|discriminate]. destruct lx; [|cbn in En; lia]. eexists. split; [reflexivity|].
      apply R_ext_o with o. { intros z. destruct (Nat.eq_dec z x) as [->|Z]; [now rewrite fupd_same, Ex, E|now rewrite fupd_other]. }
      apply R_ext with s; auto. intros z. destruct (Nat.eq_dec z x) as [->|Z]; [now rewrite fupd_same|now rewrite fupd_other].
    + destruct P as [[_ ->]|[P0 P]]; [cbn in En; lia|].
      destruct (copy_into p q (S m) h lx l) as (h' & E1 & E2 & E3 & E4 & E5); auto; [lia| |].
      { destruct Q as [[_ ->]|[_ Q]]; auto. }
      rewrite E1. cbn [bind]. eexists. split; [reflexivity|].
      apply R_ext_o with o. { intros z. destruct (Nat.eq_dec z x) as [->|Z]; [now rewrite fupd_same, Ex, E|now rewrite fupd_other]. }
      eapply R_change; eauto; [lia|]. contradiction.
  - destruct (dealloc_sim o h s x p n lx H Ex Hx) as (h1 & E & N1 & B1 & O1 & Z1). rewrite E. cbn [bind].
    assert (H1 : R (fupd o x None, h1) (fupd s x None)) by (eapply R_remove; eauto).
    assert (Q1 : (q = 0 /\ l = []) \/ q <> 0 /\ blk h1 q = Some l).
    { destruct Q as [Q|[Q0 Q]]; auto. right. split; auto. destruct (Nat.eq_dec p 0) as [Pz|P0]; [now rewrite Z1|].
      rewrite O1; auto. intros F. symmetry in F. revert F. now apply PQ. }
    assert (XX : forall v z, fupd (fupd o x None) x v z = fupd o x v z).
    { intros v z. destruct (Nat.eq_dec z x) as [->|Z]; [now rewrite !fupd_same|now rewrite !fupd_other]. }
    assert (SS : forall v z, fupd (fupd s x None) x v z = fupd s x v z).
    { intros v z. destruct (Nat.eq_dec z x) as [->|Z]; [now rewrite !fupd_same|now rewrite !fupd_other]. }
    destruct (zn && (m =? 0)) eqn:ZN.
    + apply andb_true_iff in ZN as [_ Z0]. apply Nat.eqb_eq in Z0. subst m. rewrite Z0. cbn [bind copy_loop].
      destruct l; [|discriminate]. eexists. split; [reflexivity|].
      (* an object without a block *)
      destruct H1 as [Ho Hi Hl Hn]. cbn [fst snd] in *. constructor; cbn [fst snd]; auto.
      * intros z. destruct (Nat.eq_dec z x) as [->|Zx]; [rewrite !fupd_same; cbn; auto|].
        specialize (Ho z). rewrite !fupd_other in * by auto. exact Ho.
      * intros a b r k k' Ha Hb R0. destruct (Nat.eq_dec a x) as [->|Ax]; [rewrite fupd_same in Ha; inversion Ha; lia|].
        destruct (Nat.eq_dec b x) as [->|Bx]; [rewrite fupd_same in Hb; inversion Hb; lia|].
        rewrite fupd_other in Ha, Hb by auto. apply (Hi a b r k k'); auto; now rewrite fupd_other.
      * intros r lr Er. destruct (Hl r lr Er) as (A & C & a & k & F). repeat split; auto. exists a, k.
        destruct (Nat.eq_dec a x) as [->|Ax]; [now rewrite fupd_same in F|]. rewrite fupd_other in * by auto. exact F.
    + unfold alloc. cbn [bind].
      assert (NEq : nxt h1 <> q).
      { destruct Q1 as [[-> _]|[_ Q1]]; [apply (r_nxt _ _ H1)|]. apply (r_live _ _ H1) in Q1. cbn in Q1. lia. }
      destruct (copy_into (nxt h1) q m (Heap (fupd (blk h1) (nxt h1) (Some (repeat d m))) (S (nxt h1))) (repeat d m) l)
        as (h' & E1 & E2 & E3 & E4 & E5); auto.
      * apply repeat_length.
      * right. cbn. apply fupd_same.
      * destruct Q1 as [[_ ->]|[_ Q1]]; [now left|right]. cbn. rewrite fupd_other; auto.
      * rewrite E1. cbn [bind]. eexists. split; [reflexivity|].
        eapply R_ext; [apply SS|]. eapply R_ext_o; [apply XX|]. eapply R_fresh; eauto.
        -- apply fupd_same.
        -- destruct m as [|m].
           ++ rewrite E5 by auto. cbn. rewrite fupd_same. destruct l; [reflexivity|discriminate].
           ++ now apply E3.
        -- intros r Hr. rewrite E4 by auto. cbn. now apply fupd_other.
Qed.

Lemma sim_step c (w : world T) s s' : R w s -> vstep T d c s = Some s' -> exists w', mstep d c w = Ok w' /\ R w' s'.
Proof.
  intros H. destruct c as [x n|x y|x y|x i v|x]; cbn [vstep mstep].
  - destruct (s x) eqn:E; [discriminate|]. intros Q; inversion Q; subst. now apply new_sim.
  - destruct (s x) eqn:E; [discriminate|]. destruct (s y) eqn:F; [|discriminate]. intros Q; inversion Q; subst. now apply copy_sim.
  - destruct (s x) eqn:E; [|discriminate]. destruct (s y) eqn:F; [|discriminate]. intros Q; inversion Q; subst. eapply assign_sim; eauto.
  - destruct (s x) as [l|] eqn:E; [|discriminate]. destruct (Nat.ltb_spec i (length l)); [|discriminate].
    rewrite <- upd_split by auto. intros Q; inversion Q; subst. now apply write_sim.
  - destruct (s x) eqn:E; [|discriminate]. intros Q; inversion Q; subst. eapply delete_sim; eauto.
Qed.

Lemma sim_run p : forall (w : world T) s s', R w s -> vrun T d p s = Some s' -> exists w', mrun d p w = Ok w' /\ R w' s'.
Proof.
  induction p as [|c p IH]; intros w s s' H E; cbn [vrun mrun] in *; [inversion E; subst; eauto|].
  destruct (vstep T d c s) as [s1|] eqn:V; [|discriminate]. destruct (sim_step c w s s1 H V) as (w1 & -> & H1). cbn [bind]. eauto.
Qed.

(** Observations. *)
Lemma read_ok x i (w : world T) s l : R w s -> s x = Some l -> i < length l -> 
  m_read x i w = rd l i.
Proof.
  destruct w as [o h]. intros H Hx Hi. unfold m_read. pose proof (r_obj _ _ H x) as Ox. cbn [fst snd] in *. rewrite Hx in Ox.
  destruct (o x) as [[p n]|]; [|contradiction]. destruct Ox as [-> [[_ ->]|[P B]]]; [cbn in Hi; lia|]. unfold ld. now rewrite B.
Qed.
Lemma size_ok x (w : world T) s l : R w s -> s x = Some l -> m_size x w = Ok (length l).
Proof.
  destruct w as [o h]. intros H Hx. unfold m_size. pose proof (r_obj _ _ H x) as Ox. cbn [fst snd] in *. rewrite Hx in Ox.
  destruct (o x) as [[p n]|]; [|contradiction]. now destruct Ox as [-> _].
Qed.

Lemma eq_loop_ok (eqT : T -> T -> bool) n : forall x p q (h : heap T) l m, blk h p = Some l -> blk h q = Some m ->
  length l = x + n -> length m = x + n ->
  exists b, eq_loop eqT n x p q h = Ok b /\ (b = true <-> Forall2 (fun a c => eqT a c = true) (skipn x l) (skipn x m)).
Proof.
  induction n as [|n IH]; intros x p q h l m P Q Ll Lm.
  - exists true. rewrite !skipn_all2 by lia. split; [reflexivity|split; auto].
  - cbn [eq_loop]. unfold ld. rewrite P, Q. unfold rd.
    destruct (nth_error l x) as [a|] eqn:Ea; [|apply nth_error_None in Ea; lia].
    destruct (nth_error m x) as [c|] eqn:Ec; [|apply nth_error_None in Ec; lia]. cbn [bind].
    assert (SK : forall (u : list T) e, nth_error u x = Some e -> skipn x u = e :: skipn (S x) u).
    { clear. induction x as [|x IH]; intros [|f u] e E; cbn in *; try discriminate; [now inversion E|]. now apply IH. }
    rewrite (SK l a Ea), (SK m c Ec). destruct (eqT a c) eqn:Eq.
    + destruct (IH (S x) p q h l m P Q) as (b & E & B); [lia|lia|]. exists b. split; auto. rewrite B. split; intros F.
      * constructor; auto. * now inversion F.
    + exists false. split; auto. split; [discriminate|]. intros F. inversion F. congruence.
Qed.
Lemma forall2_length {A B} (P : A -> B -> Prop) l m : Forall2 P l m -> length l = length m.
Proof. induction 1; cbn; auto. Qed.
Lemma eq_ok (eqT : T -> T -> bool) x y (w : world T) s lx ly : R w s -> s x = Some lx -> s y = Some ly ->
  exists b, m_eq eqT x y w = Ok b /\ (b = true <-> Forall2 (fun a c => eqT a c = true) lx ly).
Proof.
  destruct w as [o h]. intros H Hx Hy. unfold m_eq.
  pose proof (r_obj _ _ H x) as Ox. pose proof (r_obj _ _ H y) as Oy. cbn [fst snd] in *. rewrite Hx in Ox. rewrite Hy in Oy.
  destruct (o x) as [[p n]|]; [|contradiction]. destruct (o y) as [[q m]|]; [|contradiction].
  destruct Ox as [En P]. destruct Oy as [Em Q]. destruct (Nat.eqb_spec n m) as [E|E].
  - destruct n as [|n].
    + exists true. destruct lx; [|discriminate]. destruct ly; [|subst; discriminate]. split; [reflexivity|split; auto].
    + destruct P as [[_ ->]|[_ P]]; [discriminate|]. destruct Q as [[_ ->]|[_ Q]]; [cbn in Em; lia|].
      destruct (eq_loop_ok eqT (S n) 0 p q h lx ly P Q) as (b & E1 & E2); [lia|lia|]. exists b. auto.
  - exists false. split; auto. split; [discriminate|]. intros F. apply forall2_length in F. lia.
Qed.
End Vec.
