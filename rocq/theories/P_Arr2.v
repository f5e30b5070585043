(** Two-dimensional arrays refine variables holding grids, except for assignments that change the shape. *)
From Verif Require Import Base S_Seq P_Dll S_Vec M_Vec P_Vec P_Cache S_Arr2 M_Arr2.

Lemma prod64_small w h : (N.of_nat w * N.of_nat h < 2 ^ 64)%N -> prod64 w h = w * h.
Proof. intros L. unfold prod64, w64, W64. rewrite N.mod_small by exact L. lia. Qed.

Section Arr.
Context {T : Type}.
Variable d : T.

Definition flat (g : grid T) : list T := flat_map (fun j => map (cell g j) (seq 0 (gw g))) (seq 0 (gh g)).

Lemma flat_map_len (f : nat -> list T) w : (forall j, length (f j) = w) -> forall n a, length (flat_map f (seq a n)) = w * n.
Proof. intros L n. induction n as [|n IH]; intros a; cbn [seq flat_map]; [cbn; lia|]. rewrite app_length, L, IH. lia. Qed.
Lemma flat_length g : length (flat g) = gw g * gh g.
Proof. apply flat_map_len. intros j. now rewrite map_length, seq_length. Qed.

Lemma flat_map_nth (f : nat -> list T) w : (forall j, length (f j) = w) -> forall n a j i, j < n -> i < w ->
  nth_error (flat_map f (seq a n)) (w * j + i) = nth_error (f (a + j)) i.
Proof.
  intros L n. induction n as [|n IH]; intros a j i J I; [lia|]. cbn [seq flat_map]. destruct j as [|j].
  - rewrite Nat.mul_0_r, Nat.add_0_r. cbn. apply nth_error_app1. now rewrite L.
  - rewrite nth_error_app2 by (rewrite L; nia). rewrite L. replace (w * S j + i - w) with (w * j + i) by nia.
    rewrite IH by lia. f_equal. f_equal. lia.
Qed.
Lemma nth_map_seq {A} (f : nat -> A) n : forall a i, i < n -> nth_error (map f (seq a n)) i = Some (f (a + i)).
Proof.
  induction n as [|n IH]; intros a i I; [lia|]. destruct i as [|i]; cbn [seq map nth_error].
  - now rewrite Nat.add_0_r. - rewrite IH by lia. f_equal. f_equal. lia.
Qed.
Lemma flat_nth g j i : j < gh g -> i < gw g -> nth_error (flat g) (gw g * j + i) = Some (cell g j i).
Proof.
  intros J I. unfold flat. rewrite (flat_map_nth _ (gw g)) by (auto; intros; now rewrite map_length, seq_length).
  now rewrite nth_map_seq.
Qed.

Lemma list_ext (l m : list T) : length l = length m -> (forall i, i < length l -> nth_error l i = nth_error m i) -> l = m.
Proof.
  revert m; induction l as [|a l IH]; intros [|b m] L E; try discriminate; auto.
  f_equal. - specialize (E 0). cbn in E. assert (Some a = Some b) as Q by (apply E; lia). now inversion Q.
  - apply IH; [now inversion L|]. intros i I. apply (E (S i)). cbn. lia.
Qed.
(** Coordinates of a cell. *)
Lemma coords w h k : k < w * h -> exists j i, k = w * j + i /\ j < h /\ i < w.
Proof.
  intros L. assert (w <> 0) by (intros ->; lia). exists (k / w), (k mod w).
  split; [now apply Nat.div_mod|]. split; [|now apply Nat.mod_upper_bound]. apply Nat.div_lt_upper_bound; auto.
Qed.
Lemma flat_new w h : flat (Grid w h (fun _ _ => d)) = repeat d (w * h).
Proof.
  apply list_ext. { rewrite flat_length, repeat_length. reflexivity. }
  intros k K. rewrite flat_length in K. cbn [gw gh] in K. destruct (coords w h k K) as (j & i & -> & J & I).
  pose proof (flat_nth (Grid w h (fun _ _ => d)) j i J I) as Q. cbn [gw cell] in Q. rewrite Q. symmetry.
  rewrite (nth_error_nth' _ d) by now rewrite repeat_length. f_equal. apply nth_repeat.
Qed.
Lemma mul_add_inj w j i j' i' : i < w -> i' < w -> w * j + i = w * j' + i' -> j = j' /\ i = i'.
Proof. intros I I' E. assert (j = j') by nia. subst. lia. Qed.
Lemma flat_write g j i v : j < gh g -> i < gw g ->
  flat (Grid (gw g) (gh g) (fun b a => if (b =? j) && (a =? i) then v else cell g b a)) = upd (flat g) (gw g * j + i) v.
Proof.
  intros J I. set (g' := Grid _ _ _). assert (B : gw g * j + i < gw g * gh g) by nia.
  apply list_ext. { now rewrite upd_length, !flat_length. }
  intros k K. rewrite flat_length in K. cbn [g' gw gh] in K. destruct (coords _ _ k K) as (b & a & -> & HB & HA).
  pose proof (flat_nth g' b a HB HA) as Q. cbn [g' gw cell] in Q. rewrite Q. clear Q.
  destruct (Nat.eq_dec b j) as [->|Nb]; [destruct (Nat.eq_dec a i) as [->|Na]|].
  - rewrite !Nat.eqb_refl. cbn. symmetry. apply upd_nth_same. now rewrite flat_length.
  - rewrite (proj2 (Nat.eqb_neq a i) Na), andb_false_r. rewrite upd_nth_other by lia. symmetry. now apply flat_nth.
  - rewrite (proj2 (Nat.eqb_neq b j) Nb). cbn. rewrite upd_nth_other; [symmetry; now apply flat_nth|].
    intros Q. apply mul_add_inj in Q; auto. lia.
Qed.

Definition rows_of (p w h : nat) : list (nat * nat) := map (fun j => (p, w * j)) (seq 0 h).

Definition fits (A : aworld T) (bs : store T) (ts : store (nat * nat)) (x : nat) (o : option (grid T)) : Prop :=
  match o with
  | Some g => fst (fst A) x = Some (gw g, gh g) /\ (N.of_nat (gw g) * N.of_nat (gh g) < 2 ^ 64)%N /\
              bs x = Some (flat g) /\ ts x = Some (rows_of (base_of x (snd (fst A))) (gw g) (gh g))
  | None => fst (fst A) x = None /\ bs x = None /\ ts x = None
  end.
Definition AR (A : aworld T) (s : grids T) : Prop :=
  exists bs ts, R (snd (fst A)) bs /\ R (snd A) ts /\ forall x, fits A bs ts x (s x).

Lemma AR_init : AR ainit aempty.
Proof. exists (vempty T), (vempty (nat * nat)). split; [apply init_R|]. split; [apply init_R|]. intros x. cbn. auto. Qed.

(** Which objects an operation touches. *)
Lemma new_objs {X} (e : X) x n (w w' : world X) : m_new e x n w = Ok w' -> forall y, y <> x -> fst w' y = fst w y.
Proof. destruct w as [o h]. unfold m_new, alloc. intros E; inversion E; subst. intros y Y. cbn. now apply fupd_other. Qed.
Lemma copy_objs {X} (e : X) x z (w w' : world X) : m_copy e x z w = Ok w' -> forall y, y <> x -> fst w' y = fst w y.
Proof.
  destruct w as [o h]. unfold m_copy. destruct (o z) as [[q n]|]; [|discriminate]. destruct (alloc e n h) as [p h1].
  destruct (copy_loop n 0 p q h1); cbn [bind]; intros E; inversion E; subst. intros y Y. cbn. now apply fupd_other.
Qed.
Lemma delete_objs {X} x (w w' : world X) : m_delete x w = Ok w' -> forall y, y <> x -> fst w' y = fst w y.
Proof.
  destruct w as [o h]. unfold m_delete. destruct (o x) as [[p n]|]; [|discriminate].
  destruct (if p =? 0 then Ok h else dealloc p h); cbn [bind]; intros E; inversion E; subst. intros y Y. cbn. now apply fupd_other.
Qed.
Lemma base_objs x (b b' : world T) : fst b' x = fst b x -> base_of x b' = base_of x b.
Proof. unfold base_of. now intros ->. Qed.

Lemma fill_ok n : forall x r p w (rows : world (nat * nat)) t l, R rows t -> t x = Some l -> length l = r + n ->
  firstn r l = map (fun j => (p, w * j)) (seq 0 r) ->
  exists rows', fill n x r p w rows = Ok rows' /\ R rows' (fupd t x (Some (rows_of p w (r + n)))).
Proof.
  induction n as [|n IH]; intros x r p w rows t l H Hx L F.
  - exists rows. split; [reflexivity|]. eapply R_ext; [|exact H]. intros y. destruct (Nat.eq_dec y x) as [->|Y].
    + rewrite fupd_same, Hx. f_equal. unfold rows_of. rewrite Nat.add_0_r, <- F. symmetry. apply firstn_all2. lia.
    + now rewrite fupd_other.
  - change (fill (S n) x r p w rows) with (let* rows := m_write x r (p, w * r) rows in fill n x (S r) p w rows).
    destruct (write_sim x r (p, w * r) rows t l H Hx) as (w1 & -> & H1); [lia|]. cbn [bind].
    destruct (IH x (S r) p w w1 _ _ H1 (fupd_same _ _ _)) as (w2 & E & H2).
    + rewrite upd_length. lia.
    + rewrite upd_split by lia. rewrite seq_S, map_app, <- F. cbn [map].
      rewrite firstn_app, firstn_firstn, firstn_length. replace (Nat.min (S r) r) with r by lia.
      replace (S r - Nat.min r (length l)) with 1 by lia. reflexivity.
    + exists w2. split; auto. eapply R_ext; [|exact H2]. intros y. rewrite fupd2. now rewrite Nat.add_succ_r.
Qed.

(** What a new object leaves to show: all other variables keep their parts. *)
Lemma AR_put (dm dm' : dims) b r b' r' bs ts bs' ts' s x og :
  (forall y, fits (dm, b, r) bs ts y (s y)) ->
  R b' bs' -> R r' ts' ->
  (forall y, y <> x -> dm' y = dm y /\ fst b' y = fst b y /\ bs' y = bs y /\ ts' y = ts y) ->
  fits (dm', b', r') bs' ts' x og ->
  AR (dm', b', r') (fupd s x og).
Proof.
  intros F Hb Hr O X. exists bs', ts'. split; auto. split; auto. intros y. destruct (Nat.eq_dec y x) as [->|Y].
  - now rewrite fupd_same.
  - rewrite fupd_other by auto. destruct (O y Y) as (O1 & O2 & O3 & O4). specialize (F y). unfold fits in *. cbn [fst snd] in *.
    rewrite O1, O3, O4, (base_objs y b b' O2). exact F.
Qed.

Lemma anew_sim x w h A s : AR A s -> s x = None -> (N.of_nat w * N.of_nat h < 2 ^ 64)%N ->
  exists A', a_new d x w h A = Ok A' /\ AR A' (fupd s x (Some (Grid w h (fun _ _ => d)))).
Proof.
  destruct A as [[dm b] r]. intros (bs & ts & Hb & Hr & F) Sx L. unfold a_new. pose proof (F x) as Fx. rewrite Sx in Fx.
  destruct Fx as (Fx & Bx & Tx). cbn [fst snd] in *.
  destruct (new_sim d x (prod64 w h) b bs Hb Bx) as (b' & Eb & Hb'). rewrite Eb. cbn [bind].
  destruct (new_sim (0, 0) x h r ts Hr Tx) as (r1 & Er & Hr1). rewrite Er. cbn [bind].
  destruct (fill_ok h x 0 (base_of x b') w r1 _ _ Hr1 (fupd_same _ _ _)) as (r2 & Er2 & Hr2); [now rewrite repeat_length|reflexivity|].
  rewrite Er2. cbn [bind]. eexists. split; [reflexivity|]. eapply AR_put; [exact F|exact Hb'|exact Hr2| |].
  - intros y Y. rewrite !fupd_other by auto. repeat split; auto. eapply new_objs; eauto.
  - unfold fits. cbn [fst snd gw gh]. rewrite !fupd_same. split; auto. split; auto. split; auto. rewrite prod64_small by auto. now rewrite flat_new.
Qed.

Lemma acopy_sim x y A s g : AR A s -> s x = None -> s y = Some g ->
  exists A', a_copy d x y A = Ok A' /\ AR A' (fupd s x (Some g)).
Proof.
  destruct A as [[dm b] r]. intros (bs & ts & Hb & Hr & F) Sx Sy. unfold a_copy. pose proof (F x) as Fx. pose proof (F y) as Fy.
  rewrite Sx in Fx. rewrite Sy in Fy. destruct Fx as (Fx & Bx & Tx). destruct Fy as (Fy & Ly & By & Ty). cbn [fst snd] in *.
  rewrite Fy. destruct (copy_sim d x y b bs _ Hb Bx By) as (b' & Eb & Hb'). rewrite Eb. cbn [bind].
  destruct (new_sim (0, 0) x (gh g) r ts Hr Tx) as (r1 & Er & Hr1). rewrite Er. cbn [bind].
  destruct (fill_ok (gh g) x 0 (base_of x b') (gw g) r1 _ _ Hr1 (fupd_same _ _ _)) as (r2 & Er2 & Hr2); [now rewrite repeat_length|reflexivity|].
  rewrite Er2. cbn [bind]. eexists. split; [reflexivity|]. eapply AR_put; [exact F|exact Hb'|exact Hr2| |].
  - intros z Z. rewrite !fupd_other by auto. repeat split; auto. eapply copy_objs; eauto.
  - unfold fits. cbn [fst snd]. rewrite !fupd_same. auto.
Qed.

Lemma adelete_sim x A s g : AR A s -> s x = Some g -> exists A', a_delete x A = Ok A' /\ AR A' (fupd s x None).
Proof.
  destruct A as [[dm b] r]. intros (bs & ts & Hb & Hr & F) Sx. unfold a_delete. pose proof (F x) as Fx. rewrite Sx in Fx.
  destruct Fx as (Fx & Lx & Bx & Tx). cbn [fst snd] in *.
  destruct (delete_sim x r ts _ Hr Tx) as (r' & Er & Hr'). rewrite Er. cbn [bind].
  destruct (delete_sim x b bs _ Hb Bx) as (b' & Eb & Hb'). rewrite Eb. cbn [bind].
  eexists. split; [reflexivity|]. eapply AR_put; [exact F|exact Hb'|exact Hr'| |].
  - intros z Z. rewrite !fupd_other by auto. repeat split; auto. eapply delete_objs; eauto.
  - unfold fits. cbn [fst snd]. rewrite !fupd_same. auto.
Qed.

Lemma row_read A s x g j : AR A s -> s x = Some g -> j < gh g ->
  m_read x j (snd A) = Ok (base_of x (snd (fst A)), gw g * j).
Proof.
  intros (bs & ts & Hb & Hr & F) Sx J. pose proof (F x) as Fx. rewrite Sx in Fx. destruct Fx as (Fx & Lx & Bx & Tx).
  assert (LR : length (rows_of (base_of x (snd (fst A))) (gw g) (gh g)) = gh g) by (unfold rows_of; now rewrite map_length, seq_length).
  rewrite (read_ok x j _ ts _ Hr Tx) by lia. unfold rd, rows_of. rewrite nth_map_seq by auto. reflexivity.
Qed.
Lemma base_some A s x g : AR A s -> s x = Some g -> exists n, fst (snd (fst A)) x = Some (base_of x (snd (fst A)), n).
Proof.
  intros (bs & ts & Hb & Hr & F) Sx. pose proof (F x) as Fx. rewrite Sx in Fx. destruct Fx as (Fx & Lx & Bx & Tx).
  pose proof (r_obj _ _ Hb x) as O. rewrite Bx in O. unfold base_of. destruct (fst (snd (fst A)) x) as [[p n]|]; [eauto|contradiction].
Qed.

Lemma awrite_sim x j i v A s g : AR A s -> s x = Some g -> j < gh g -> i < gw g ->
  exists A', a_write x j i v A = Ok A' /\
    AR A' (fupd s x (Some (Grid (gw g) (gh g) (fun b a => if (b =? j) && (a =? i) then v else cell g b a)))).
Proof.
  intros H Sx J I. pose proof (row_read A s x g j H Sx J) as RR. destruct (base_some A s x g H Sx) as (n & BS).
  destruct A as [[dm b] r]. destruct H as (bs & ts & Hb & Hr & F). cbn [fst snd] in *. unfold a_write. rewrite RR. cbn [bind].
  pose proof (F x) as Fx. rewrite Sx in Fx. destruct Fx as (Fx & Lx & Bx & Tx). cbn [fst snd] in *.
  assert (B : gw g * j + i < length (flat g)) by (rewrite flat_length; nia).
  destruct (write_sim x (gw g * j + i) v b bs (flat g) Hb Bx B) as (b' & Eb & Hb').
  destruct b as [o h]. cbn [fst snd] in *. unfold m_write in Eb. rewrite BS in Eb.
  destruct (st (base_of x (o, h)) (gw g * j + i) v h) as [h'| |]; cbn [bind] in *; inversion Eb; subst b'.
  eexists. split; [reflexivity|]. eapply AR_put with (bs' := fupd bs x (Some (upd (flat g) (gw g * j + i) v))) (ts' := ts); [exact F|exact Hb'|exact Hr| |].
  - intros z Z. rewrite !fupd_other by auto. auto.
  - unfold fits. cbn [fst snd gw gh]. rewrite !fupd_same, flat_write by auto. split; auto.
Qed.

Lemma aread_ok x j i A s g : AR A s -> s x = Some g -> j < gh g -> i < gw g -> a_read x j i A = Ok (cell g j i).
Proof.
  intros H Sx J I. pose proof (row_read A s x g j H Sx J) as RR. destruct (base_some A s x g H Sx) as (n & BS).
  destruct A as [[dm b] r]. destruct H as (bs & ts & Hb & Hr & F). cbn [fst snd] in *. unfold a_read. rewrite RR. cbn [bind].
  pose proof (F x) as Fx. rewrite Sx in Fx. destruct Fx as (Fx & Lx & Bx & Tx). cbn [fst snd] in *.
  assert (B : gw g * j + i < length (flat g)) by (rewrite flat_length; nia).
  pose proof (read_ok x _ b bs (flat g) Hb Bx B) as Q. unfold m_read in Q. rewrite BS in Q. rewrite Q. unfold rd.
  now rewrite flat_nth.
Qed.

(** Assignment without a change of shape, or from an empty array. *)
Lemma aassign_sim x y A s a g : AR A s -> s x = Some a -> s y = Some g -> reshapes (AAssign x y) s = false ->
  exists A', a_assign d x y A = Ok A' /\ AR A' (fupd s x (Some g)).
Proof.
  destruct A as [[dm b] r]. intros (bs & ts & Hb & Hr & F) Sx Sy NR. unfold a_assign. pose proof (F x) as Fx. pose proof (F y) as Fy.
  rewrite Sx in Fx. rewrite Sy in Fy. destruct Fx as (Fx & Lx & Bx & Tx). destruct Fy as (Fy & Ly & By & Ty). cbn [fst snd] in *.
  rewrite Fx, Fy. destruct (Nat.eqb_spec x y) as [->|NE].
  { eexists. split; [reflexivity|]. rewrite Sx in Sy. inversion Sy; subst a. exists bs, ts. split; auto. split; auto.
    intros z. destruct (Nat.eq_dec z y) as [->|Z]; [rewrite fupd_same|rewrite fupd_other by auto; apply F]. rewrite <- Sx. apply F. }
  cbn [reshapes] in NR. rewrite Sx, Sy in NR. rewrite (prod64_small _ _ Ly).
  destruct ((gw a =? gw g) && (gh a =? gh g)) eqn:D.
  - apply andb_true_iff in D as [D1 D2]. apply Nat.eqb_eq in D1. apply Nat.eqb_eq in D2. cbn [bind].
    destruct (assign_sim d true x y b bs _ _ Hb Bx By) as (b' & Eb & Hb'). destruct b as [o h]. unfold m_assign in Eb.
    pose proof (r_obj _ _ Hb x) as Ox. pose proof (r_obj _ _ Hb y) as Oy. cbn [fst snd] in *. rewrite Bx in Ox. rewrite By in Oy.
    destruct (o x) as [[p n]|] eqn:Ex; [|contradiction]. destruct (o y) as [[q m]|] eqn:Ey; [|contradiction].
    destruct Ox as [En _]. destruct Oy as [Em _]. rewrite flat_length in En, Em.
    rewrite (proj2 (Nat.eqb_neq x y) NE) in Eb. rewrite (proj2 (Nat.eqb_eq n m)) in Eb by (rewrite En, Em, D1, D2; reflexivity).
    cbn [bind] in Eb. unfold base_of. cbn [fst snd]. rewrite Ex, Ey, <- Em.
    destruct (copy_loop m 0 p q h) as [h'| |]; cbn [bind] in *; inversion Eb; subst b'.
    eexists. split; [reflexivity|].
    eapply AR_put with (bs' := fupd bs x (Some (flat g))) (ts' := ts); [exact F| |exact Hr| |].
    + eapply R_ext_o; [|exact Hb']. intros z. destruct (Nat.eq_dec z x) as [->|Z]; [|now rewrite fupd_other].
      rewrite fupd_same, Ex. f_equal. f_equal. rewrite En, Em, D1, D2. reflexivity.
    + intros z Z. rewrite !fupd_other by auto. auto.
    + unfold fits. cbn [fst snd]. rewrite !fupd_same. split; auto. split; auto. split; auto. rewrite Tx. unfold base_of. cbn [fst]. rewrite Ex, D1, D2. reflexivity.
  - cbn in NR. apply negb_false_iff, Nat.eqb_eq in NR. rewrite NR. cbn [negb Nat.eqb].
    destruct (delete_sim x r ts _ Hr Tx) as (r1 & Er & Hr1). rewrite Er. cbn [bind].
    destruct (delete_sim x b bs _ Hb Bx) as (b1 & Eb & Hb1). rewrite Eb. cbn [bind].
    destruct (new_sim d x 0 b1 _ Hb1 (fupd_same _ _ _)) as (b2 & Eb2 & Hb2). rewrite Eb2. cbn [bind].
    destruct (new_sim (0, 0) x (gh g) r1 _ Hr1 (fupd_same _ _ _)) as (r2 & Er2 & Hr2). rewrite Er2. cbn [bind].
    destruct (fill_ok (gh g) x 0 (base_of x b2) (gw g) r2 _ _ Hr2 (fupd_same _ _ _)) as (r3 & Er3 & Hr3); [now rewrite repeat_length|reflexivity|].
    rewrite Er3. cbn [bind copy_loop]. eexists. split; [reflexivity|].
    eapply AR_put; [exact F| |exact Hr3| |].
    + replace (fst b2, snd b2) with b2 by now destruct b2. exact Hb2.
    + intros z Z. rewrite !fupd_other by auto. repeat split; auto. cbn [fst]. rewrite (new_objs d x 0 b1 b2 Eb2 z Z). eapply delete_objs; eauto.
    + unfold fits. cbn [fst snd]. rewrite !fupd_same. split; auto. split; auto. split.
      * f_equal. cbn. destruct (flat g) as [|c l] eqn:E; auto. pose proof (flat_length g) as Q. rewrite E, NR in Q. discriminate.
      * reflexivity.
Qed.

Lemma ld_not_fuel {X} p i (h : heap X) : (exists v, ld p i h = Ok v) \/ ld p i h = UB.
Proof. unfold ld, rd. destruct (blk h p) as [l|]; auto. destruct (nth_error l i); eauto. Qed.

Lemma areshape_ub x y A s : AR A s -> reshapes (AAssign x y) s = true -> a_assign d x y A = UB.
Proof.
  destruct A as [[dm b] r]. intros (bs & ts & Hb & Hr & F) NR. cbn [reshapes] in NR. unfold a_assign. pose proof (F x) as Fx. pose proof (F y) as Fy.
  destruct (s x) as [a|] eqn:Sx; [|discriminate]. destruct (s y) as [g|] eqn:Sy; [|discriminate].
  destruct Fx as (Fx & Lx & Bx & Tx). destruct Fy as (Fy & Ly & By & Ty). cbn [fst snd] in *.
  rewrite Fx, Fy. apply andb_true_iff in NR as [D NZ]. apply negb_true_iff in D.
  destruct (Nat.eqb_spec x y) as [->|NE].
  { rewrite Sx in Sy. inversion Sy; subst a. rewrite !Nat.eqb_refl in D. discriminate. }
  rewrite D. rewrite (prod64_small _ _ Ly), NZ.
  destruct (delete_sim x r ts _ Hr Tx) as ([ro rh] & Er & Hr1). rewrite Er. cbn [bind].
  destruct (delete_sim x b bs _ Hb Bx) as ([bo bh] & Eb & Hb1). rewrite Eb. cbn [bind].
  apply negb_true_iff, Nat.eqb_neq in NZ. destruct (gw g * gh g) as [|k]; [lia|]. cbn [copy_loop snd].
  replace (base_of x (fupd bo x (Some (0, S k)), bh)) with 0 by (unfold base_of; cbn [fst]; now rewrite fupd_same).
  destruct (ld_not_fuel (base_of y (fupd bo x (Some (0, S k)), bh)) 0 bh) as [(v & ->)| ->]; [|reflexivity]. cbn [bind].
  assert (Z : blk bh 0 = None).
  { destruct (blk bh 0) as [l|] eqn:E; auto. apply (r_live _ _ Hb1) in E. cbn in E. lia. }
  unfold st. rewrite Z. reflexivity.
Qed.

Lemma asim_step o A s s' : AR A s -> astep T d o s = Some s' -> 
  if reshapes o s then amstep d o A = UB else exists A', amstep d o A = Ok A' /\ AR A' s'.
Proof.
  intros H E. destruct (reshapes o s) eqn:RS.
  - destruct o; try discriminate RS. now apply (areshape_ub x y A s).
  - destruct o as [x w h|x y|x y|x j i v|x]; cbn [astep amstep] in *.
    + destruct (s x) eqn:Sx; [discriminate|]. destruct (N.ltb_spec (N.of_nat w * N.of_nat h) (2 ^ 64)); [|discriminate].
      inversion E; subst. now apply anew_sim.
    + destruct (s x) eqn:Sx; [discriminate|]. destruct (s y) eqn:Sy; [|discriminate]. inversion E; subst. now apply acopy_sim.
    + destruct (s x) eqn:Sx; [|discriminate]. destruct (s y) eqn:Sy; [|discriminate]. inversion E; subst. eapply aassign_sim; eauto.
    + destruct (s x) as [g|] eqn:Sx; [|discriminate]. destruct (Nat.ltb_spec j (gh g)); [|discriminate]. destruct (Nat.ltb_spec i (gw g)); [|discriminate].
      inversion E; subst. now apply awrite_sim.
    + destruct (s x) eqn:Sx; [|discriminate]. inversion E; subst. eapply adelete_sim; eauto.
Qed.

Lemma asim_run p : forall A s s' b, AR A s -> arun T d p s = Some (s', b) ->
  if b then amrun d p A = UB else exists A', amrun d p A = Ok A' /\ AR A' s'.
Proof.
  induction p as [|o p IH]; intros A s s' b H E; cbn [arun amrun] in *.
  - inversion E; subst. eauto.
  - destruct (astep T d o s) as [s1|] eqn:S1; [|discriminate]. destruct (arun T d p s1) as [[s2 b2]|] eqn:S2; [|discriminate].
    inversion E; subst. pose proof (asim_step o A s s1 H S1) as Q. destruct (reshapes o s); cbn [orb].
    + now rewrite Q.
    + destruct Q as (A1 & -> & H1). cbn [bind]. eapply IH; eauto.
Qed.
End Arr.
