(** C146: several threads use one thread-local allocator. *)
From Verif Require Import Base S_Seq S_Tls S_TlsThreads M_Tls M_TlsThreads P_Dll P_List P_Tls P_TlsThreads.
Local Arguments Nat.pow : simpl never.
Local Arguments Nat.max : simpl never.
Local Arguments NormalizeBitPosition : simpl never.
Local Arguments N.modulo : simpl never.

Lemma firstn_upd {A} (v : A) : forall b n i, firstn n (upd b i v) = upd (firstn n b) i v.
Proof. induction b as [|x b IH]; intros [|n] [|i]; cbn; try reflexivity. now rewrite IH. Qed.

(** Whatever threads do for [n] calls, the allocator does its part; and whenever no thread has a cache,
    exactly the blocks the program owns are allocated. *)
Fixpoint tserves (node : nat) (junk : nat -> nat -> N) (P : nat -> Prop) (n : nat) (w : world) (s : tview) : Prop :=
  ((forall k, on s k = false) -> forall p, wheap w p <> None <-> owned s p <> None) /\
  match n with
  | O => True
  | S m => forall k o, tallowed P s k o -> exists w' a s', texec node junk w k o = Ok (w', a) /\ tstep s k o a s' /\ tserves node junk P m w' s'
  end.

(** Blocks may be freed by any thread that has a cache, as long as the sizes of the caches are
    compatible. *)
Theorem C146_serves : forall node junk P, compatible node P -> forall n, tserves node junk P n nobody_yet tnothing.
Proof.
  intros node junk P C n.
  assert (G : forall n w s, winv node P w s -> tserves node junk P n w s).
  { clear n. induction n as [|n IH]; intros w s I.
    all: assert (Fin : (forall k, on s k = false) -> forall p, wheap w p <> None <-> owned s p <> None).
    1, 3: intros Off p; split;
      [intro H; destruct (w_own _ _ _ _ I p H) as [X|(k & i & q & Em & _)]; [exact X|]; pose proof (w_on _ _ _ _ I k) as Y; rewrite Off, Em in Y; discriminate
      |intro H; destruct (owned s p) as [c|] eqn:E; [|congruence]; destruct (w_live _ _ _ _ I _ _ E) as (b & h & Eb & _); congruence].
    - split; [exact Fin|exact Logic.I].
    - split; [exact Fin|]. intros k o A. destruct o as [bits|m|p ca| |p i v|p i]; cbn [tallowed] in A; cbn [texec].
      + eexists. eexists. eexists. split; [reflexivity|]. split; [apply t_init|]. apply IH.
        unfold ThreadInit, see. cbn [main]. destruct (mains w k) as [q|] eqn:Em.
        * assert (J : winv node P (leave w k (Tls (Some q) (wheap w) (wreq w))) s).
          { apply (change_heap node junk P w s k); [exact I|cbn; congruence|reflexivity|exact (w_live _ _ _ _ I)| |exact (w_req _ _ _ _ I)|exact (w_own _ _ _ _ I)]. intros k' i p X. split; [apply (w_q _ _ _ _ I _ _ _ X)|reflexivity]. }
          destruct J as [A1 A2 A3 A4 A5 A6 A7 A8]. constructor; cbn [on owned]; auto.
          intro k'. specialize (A1 k'). unfold leave in *. cbn [mains main] in *. unfold fupd in *. destruct (k' =? k); [reflexivity|exact A1].
        * unfold leave. cbn [main heap req].
          assert (K : forall k' i x h r, cached (World (fupd (mains w) k (Some (repeat [] bits))) h r) k' i x <-> cached w k' i x).
          { intros k' i x h r. unfold cached. cbn [mains]. unfold fupd. destruct (Nat.eqb_spec k' k) as [E|D]; [|tauto]. rewrite E, Em. split; [|intros (? & ? & _); discriminate].
            intros (q & X & Y). injection X as <-. rewrite nth_repeat_nil in Y. destruct Y. }
          constructor; cbn [mains wheap wreq on owned].
          -- intro k'. unfold fupd. destruct (k' =? k); [reflexivity|apply (w_on _ _ _ _ I)].
          -- intros k' q X. unfold fupd in X. destruct (k' =? k); [injection X as <-; rewrite repeat_length; exact A|exact (w_bits _ _ _ _ I _ _ X)].
          -- exact (w_live _ _ _ _ I).
          -- intros k' i p X. apply K in X. exact (w_q _ _ _ _ I _ _ _ X).
          -- intros k' i q X. unfold fupd in X. destruct (k' =? k); [injection X as <-; rewrite nth_repeat_nil; constructor|exact (w_nd _ _ _ _ I _ _ _ X)].
          -- intros k1 k2 i1 i2 p X1 X2. apply K in X1, X2. exact (w_one _ _ _ _ I _ _ _ _ _ X1 X2).
          -- exact (w_req _ _ _ _ I).
          -- intros p X. destruct (w_own _ _ _ _ I p X) as [Y|(k' & i & Y)]; [left; exact Y|right; exists k', i; apply K; exact Y].
      + assert (Same : winv node P (leave w k (see w k)) s).
        { apply (change_heap node junk P w s k); [exact I|reflexivity|reflexivity|exact (w_live _ _ _ _ I)| |exact (w_req _ _ _ _ I)|exact (w_own _ _ _ _ I)]. intros k' i p X. split; [apply (w_q _ _ _ _ I _ _ _ X)|reflexivity]. }
        destruct (Nat.eq_dec m 0) as [->|N0].
        { eexists. eexists. eexists. split; [reflexivity|]. split; [apply t_zero|]. exact (IH _ _ Same). }
        destruct (on s k) eqn:O.
        * destruct (malloc_threads node junk P C w s k m I ltac:(lia) A O) as (t & p & c & E & Lc & U & I'). rewrite E. cbn [bind]. eexists. eexists. eexists. split; [reflexivity|]. split; [apply t_malloc; [lia|exact O|exact Lc|exact U]|]. apply IH. exact I'.
        * eexists. eexists. eexists. split; [|split; [apply t_off; exact O|exact (IH _ _ Same)]]. unfold malloc. rewrite (proj2 (Nat.eqb_neq m 0)) by exact N0.
          rewrite (w_on _ _ _ _ I) in O. unfold see at 1. cbn [main]. destruct (mains w k) eqn:Em; [discriminate|]. reflexivity.
      + destruct A as [A O]. destruct (owned s p) as [c|] eqn:Ow; [|congruence]. destruct (free_threads node junk P w s k p c ca I Ow O) as (t & E & I'). rewrite E. cbn [bind].
        eexists. eexists. eexists. split; [reflexivity|]. split; [apply t_free|]. apply IH. exact I'.
      + destruct (end_threads node junk P w s k I) as (t & b & E & I'). rewrite E. cbn [bind]. eexists. eexists. eexists. split; [reflexivity|]. split; [apply t_end|]. apply IH. exact I'.
      + destruct A as (c & Ow & Li). destruct (w_live _ _ _ _ I _ _ Ow) as (b & h & Eb & B1 & B2 & B3 & B4 & B5 & B6).
        unfold client_store, store, see. cbn [heap main req]. rewrite Eb, wr_in by lia. cbn [bind]. eexists. eexists. eexists. split; [reflexivity|]. split; [apply (t_write s k p i v c Ow)|]. apply IH.
        apply (change_heap node junk P w s k); [exact I|reflexivity|reflexivity| | | |]; cbn [heap req owned].
        * intros x c' X. destruct (Nat.eq_dec x p) as [->|D]; [|rewrite fupd_other in X |- * by exact D; exact (w_live _ _ _ _ I _ _ X)]. rewrite fupd_same in X |- *. injection X as <-. eexists. exists h. split; [reflexivity|].
          destruct b as [|b0 b]; [cbn in B3; lia|]. unfold tblock. rewrite !upd_length. cbn [Nat.add upd] in *. split; [exact B1|]. split; [exact B2|]. split; [exact B3|].
          split; [|split; [rewrite ?upd_length in *; cbn [length] in *; rewrite ?upd_length; exact B5|intros b2 H2 L2; specialize (B6 b2 H2 L2); cbn [length] in *; rewrite ?upd_length; exact B6]].
          cbn [skipn] in *. rewrite <- B4 at 2. rewrite firstn_upd. reflexivity.
        * intros k' j x X. destruct (w_q _ _ _ _ I _ _ _ X) as [Y _]. assert (x <> p) by congruence. rewrite !fupd_other by assumption. auto.
        * intros x X. assert (x <> p) by (intros ->; rewrite (w_req _ _ _ _ I) in Eb by exact X; discriminate). rewrite fupd_other by assumption. exact (w_req _ _ _ _ I _ X).
        * intros x X. destruct (Nat.eq_dec x p) as [->|D]; [left; rewrite fupd_same; discriminate|]. rewrite fupd_other in X |- * by exact D. exact (w_own _ _ _ _ I _ X).
      + destruct A as (c & Ow & Li). destruct (w_live _ _ _ _ I _ _ Ow) as (b & h & Eb & B1 & B2 & B3 & B4 & B5 & B6).
        destruct (nth_error c i) as [v|] eqn:Ev; [|apply nth_error_None in Ev; lia].
        exists w, (AByte v), s. split; [|split; [exact (t_read s k p i c v Ow Ev)|exact (IH _ _ I)]].
        unfold client_load, load, see. cbn [heap]. rewrite Eb. unfold rd. destruct b as [|b0 b]; [cbn in B3; lia|]. cbn [Nat.add nth_error]. cbn [skipn] in B4.
        assert (X : nth_error b i = Some v). { rewrite <- (firstn_skipn (length c) b), nth_error_app1, B4; [exact Ev|]. rewrite B4. exact Li. }
        rewrite X. reflexivity. }
  apply G. constructor; cbn.
  - reflexivity.
  - discriminate.
  - discriminate.
  - intros k i p (q & X & _). discriminate.
  - discriminate.
  - intros k k' i i' p (q & X & _). discriminate.
  - reflexivity.
  - intros p X. contradiction.
Qed.

(** Sizes of caches that are compatible: one size; any sizes above 3 if a node has at most 17 bytes;
    all sizes if it has at most 9. *)
Theorem C146_compatible : forall node, (forall b, compatible node (fun x => x = b)) /\ (node <= 17 -> compatible node (fun x => 3 < x)) /\ (node <= 9 -> compatible node (fun _ => True)).
Proof.
  intro node. split; [|split].
  - intros b b1 b2 i -> -> H. lia.
  - intros H b1 b2 i P1 P2 L1 L2. assert (2 ^ 4 <= 2 ^ i) by (apply Nat.pow_le_mono_r; lia). change (2 ^ 4) with 16 in *. lia.
  - intros H b1 b2 i _ _ L1 L2. assert (2 ^ 3 <= 2 ^ i) by (apply Nat.pow_le_mono_r; lia). change (2 ^ 3) with 8 in *. lia.
Qed.

(** Otherwise a block that goes from a thread that does not cache its size to one that does is
    written to past its end. *)
Theorem C146_overflow_refuted : forall node junk b1 b2 i, b1 <= i < b2 -> 3 <= i <= 30 -> 2 ^ i + 1 < node ->
  exists w1 w2 w3 p, texec node junk nobody_yet 1 (TInit b1) = Ok (w1, ANone) /\ texec node junk w1 2 (TInit b2) = Ok (w2, ANone) /\
    texec node junk w2 1 (TMalloc (2 ^ i)) = Ok (w3, APtr (Some p)) /\ texec node junk w3 2 (TFree p true) = UB.
Proof.
  intros node junk b1 b2 i L I3 Hn. do 4 eexists. split; [reflexivity|]. split; [reflexivity|].
  assert (Pos : 0 < 2 ^ i) by (pose proof (Nat.pow_nonzero 2 i); lia).
  split.
  - cbn [texec]. unfold malloc, see. rewrite (proj2 (Nat.eqb_neq _ 0)) by lia. cbn [leave ThreadInit see main mains heap req wheap wreq nobody_yet]. unfold fupd at 1 2. cbn [Nat.eqb]. rewrite norm_pow by exact I3. cbn [bind].
    rewrite repeat_length, (proj2 (Nat.leb_le _ _)) by lia. unfold sys_malloc. cbn [req main heap].
    rewrite (tag_ok _ _ i (fresh junk 0 (2 ^ i + 1))); [cbn [bind]; reflexivity|cbn [heap]; apply fupd_same|rewrite fresh_length; lia|lia].
  - cbn [texec]. unfold free, see, leave. cbn [main mains heap req wheap wreq]. unfold fupd at 1. cbn [Nat.eqb]. cbn [leave ThreadInit see main mains heap req wheap wreq nobody_yet]. unfold fupd at 1. cbn [Nat.eqb].
    unfold load. cbn [heap]. rewrite fupd_same. unfold rd, tagged. rewrite upd_nth_same by (rewrite fresh_length; lia). cbn [bind].
    match goal with |- context [main (ThreadInit ?x b2)] => change (main (ThreadInit x b2)) with (Some (repeat (@nil nat) b2)) end. cbv iota.
    rewrite Nat2N.id, repeat_length, (proj2 (Nat.leb_gt _ _)) by lia. cbn [negb].
    unfold blit. rewrite upd_length, !fresh_length, (proj2 (Nat.leb_gt _ _)) by lia. reflexivity.
Qed.

(** A block that is freed after ThreadEnd stays allocated. *)
Theorem C146_late_refuted : forall node junk bits n c, 0 < n -> n <= 2 ^ 30 ->
  exists w1 w2 w3 w4 p, texec node junk nobody_yet 1 (TInit bits) = Ok (w1, ANone) /\ texec node junk w1 1 (TMalloc n) = Ok (w2, APtr (Some p)) /\
    texec node junk w2 1 TEnd = Ok (w3, ANone) /\ texec node junk w3 1 (TFree p c) = Ok (w4, ANone) /\ wheap w4 p <> None /\ forall k, mains w4 k = None.
Proof.
  intros node junk bits n c N0 N1.
  assert (C : compatible node (fun x => x = bits)) by (apply C146_compatible).
  pose proof (C146_serves node junk _ C 3) as G. destruct G as [_ G]. destruct (G 1 (TInit bits) eq_refl) as (w1 & a1 & s1 & E1 & S1 & G1). inversion S1; subst. clear G. destruct G1 as [_ G1].
  destruct (G1 1 (TMalloc n) N1) as (w2 & a2 & s2 & E2 & S2 & G2). clear G1. inversion S2 as [|n' Off|N2|n' p c' H1 H2 H3 H4| | | |]; [discriminate|lia|]. subst a2 s2 n'.
  destruct G2 as [_ G2]. destruct (G2 1 TEnd Logic.I) as (w3 & a3 & s3 & E3 & S3 & G3). inversion S3; subst a3 s3. clear G2. destruct G3 as [G3 _]. cbn [on owned] in *.
  exists w1, w2, w3, (World (fupd (mains w3) 1 None) (wheap w3) (wreq w3)), p. split; [exact E1|]. split; [exact E2|]. split; [exact E3|].
  assert (M : forall k, mains w3 k = None).
  { revert E1 E2 E3. cbn [texec]. intros [= <-]. intro E2. revert E2. unfold ThreadEnd.
    destruct (malloc node junk (fun _ => true) (see _ 1) n) as [[t r]| |] eqn:Em; cbn [bind]; [|discriminate|discriminate]. intros [= <- ->]. cbn [see main leave mains]. rewrite fupd_same. cbn [main].
    destruct (main t) as [q|] eqn:Et.
    - destruct (free_all _ (concat q)) as [t1| |] eqn:Ef; cbn [bind]; [|discriminate|discriminate]. intros [= <-]. cbn [leave mains]. intro k.
      assert (Mt : main t1 = None).
      { assert (X : forall l a b, free_all a l = Ok b -> main b = main a).
        { induction l as [|x l IH]; cbn [free_all]; intros a b Y; [congruence|]. unfold sys_free in Y. destruct (heap a x); [|discriminate]. cbn [bind] in Y. rewrite (IH _ _ Y). reflexivity. }
        rewrite (X _ _ _ Ef). reflexivity. }
      rewrite Mt. unfold fupd. destruct (k =? 1); [reflexivity|]. reflexivity.
    - cbn [bind]. intros [= <-]. intro k. cbn [leave see mains main]. rewrite fupd_same. unfold fupd. destruct (k =? 1); [exact Et|reflexivity]. }
  split; [|split; [|intro k; cbn [mains]; unfold fupd; destruct (k =? 1); [reflexivity|apply M]]].
  - cbn [texec]. unfold free, see. rewrite M. reflexivity.
  - apply G3; [intro k; unfold fupd; destruct (k =? 1); reflexivity|]. rewrite fupd_same. discriminate.
Qed.


(** Two threads with caches of the default size; a block of the first is freed by the second, which
    then gets it. *)
Example C146_ex : let junk := fun _ _ => 7%N in exists w1 w2 w3 w4 w5,
  texec 16 junk nobody_yet 1 (TInit 15) = Ok (w1, ANone) /\ texec 16 junk w1 2 (TInit 15) = Ok (w2, ANone) /\
  texec 16 junk w2 1 (TMalloc 5) = Ok (w3, APtr (Some 0)) /\ texec 16 junk w3 2 (TFree 0 true) = Ok (w4, ANone) /\
  texec 16 junk w4 2 (TMalloc 8) = Ok (w5, APtr (Some 0)).
Proof. do 5 eexists. repeat split. Qed.
(** Nodes of 16 bytes, caches for up to 2^2 and up to 2^14 bytes: 8 bytes and the tag are too few. *)
Example C146_overflow_ex : ~ compatible 16 (fun x => x = 3 \/ x = 15).
Proof. intro C. specialize (C 3 15 3 (or_introl eq_refl) (or_intror eq_refl) ltac:(lia) ltac:(lia)). change (2 ^ 3) with 8 in C. lia. Qed.

Print Assumptions C146_serves.
Print Assumptions C146_compatible.
Print Assumptions C146_overflow_refuted.
Print Assumptions C146_late_refuted.
