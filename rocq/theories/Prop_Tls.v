(** C48, C49, C68: the thread-local allocator. *)
From Verif Require Import Base S_Seq S_Tls M_Tls P_Dll P_Tls.
Local Arguments Nat.pow : simpl never.
Local Arguments Nat.max : simpl never.

Section Game.
Variables (node : nat) (junk : nat -> nat -> N) (avail moves : nat -> bool).
(** The operations considered. *)
Variable menu : op -> Prop.

(** The allocator in state [t] serves its client, who owns [s], for [n] further operations:
    whatever permitted operation the client chooses, it is carried out without undefined
    behaviour, the answer is one the specification permits, and so on; and at every moment
    ThreadEnd leaves allocated exactly the blocks the client owns. *)
Fixpoint serves (n : nat) (t : tls) (s : view) : Prop :=
  (exists t', ThreadEnd t = Ok (t', true) /\
    forall p, heap t' p <> None <-> live s p <> None \/ raw s p <> None) /\
  match n with
  | 0 => True
  | S m => forall o, menu o -> allowed s o ->
      exists t' a s', exec node junk avail moves t o = Ok (t', a) /\ step s o a s' /\ serves m t' s'
  end.

(** The same when the C library may fail: then NULL is answered and the client keeps what
    it has. *)
Fixpoint serves_or_null (n : nat) (t : tls) (s : view) : Prop :=
  match n with
  | 0 => True
  | S m => forall o, menu o -> allowed s o ->
      exists t' a s', exec node junk avail moves t o = Ok (t', a) /\
        (step s o a s' \/ a = APtr None /\ s' = s) /\ serves_or_null m t' s'
  end.
End Game.

Definition no_dup (o : op) : Prop := match o with KDup _ _ => False | _ => True end.
(** Sizes given to realloc are cached ones. *)
Definition small_realloc (bits : nat) (o : op) : Prop :=
  match o with KRealloc _ n _ => n <= 2 ^ (bits - 1) | _ => True end.
(** No realloc, and only cached sizes. *)
Definition small_only (bits : nat) (o : op) : Prop :=
  match o with KMalloc n => n <= 2 ^ (bits - 1) | KRealloc _ _ _ => False | _ => True end.

(** Any sequence of malloc, realloc and free, with sizes up to 2^30, on a C library with
    enough memory: every block given out is large enough, disjoint from all blocks the client
    owns, keeps its contents until the client changes or frees it, and realloc keeps the
    common part. *)
Theorem C48_allocator : forall node junk avail moves bits, (forall k, avail k = true) ->
  forall n, serves node junk avail moves no_dup n (ThreadInit no_thread bits) nothing.
Proof.
  intros node junk avail moves bits Av n.
  assert (G : forall n t s q, inv node bits false t s q -> serves node junk avail moves no_dup n t s).
  { clear n. induction n as [|n IH]; intros t s q I.
    - cbn [serves]. destruct (end_ok node junk avail moves bits false t s q I) as (t' & E1 & _ & E2). split; eauto.
    - cbn [serves]. split; [destruct (end_ok node junk avail moves bits false t s q I) as (t' & E1 & _ & E2); eauto|].
      intros o M A. destruct (exec_ok node junk avail moves bits false t s q o (Av _) I A) as (t' & q' & a & s' & E1 & E2 & E3).
      { destruct o; cbn [no_dup mode_ok] in *; try exact Logic.I; [discriminate|contradiction]. }
      exists t', a, s'. split; [exact E1|]. split; [exact E2|]. eapply IH; eauto. }
  eapply G. apply init_ok.
Qed.

(** With dup_malloc as well, provided realloc is only asked for cached sizes: the duplicate
    holds the whole contents. *)
Theorem C49_keep_contents : forall node junk avail moves bits, (forall k, avail k = true) ->
  forall n, serves node junk avail moves (small_realloc bits) n (ThreadInit no_thread bits) nothing.
Proof.
  intros node junk avail moves bits Av n.
  assert (G : forall n t s q, inv node bits true t s q -> serves node junk avail moves (small_realloc bits) n t s).
  { clear n. induction n as [|n IH]; intros t s q I.
    - cbn [serves]. destruct (end_ok node junk avail moves bits true t s q I) as (t' & E1 & _ & E2). split; eauto.
    - cbn [serves]. split; [destruct (end_ok node junk avail moves bits true t s q I) as (t' & E1 & _ & E2); eauto|].
      intros o M A. destruct (exec_ok node junk avail moves bits true t s q o (Av _) I A) as (t' & q' & a & s' & E1 & E2 & E3).
      { destruct o; cbn [small_realloc mode_ok] in *; try exact Logic.I; try reflexivity. intros _. exact M. }
      exists t', a, s'. split; [exact E1|]. split; [exact E2|]. eapply IH; eauto. }
  eapply G. apply init_ok.
Qed.

(** REFUTED: for every size class [k] that is not cached, growing a block in that class by
    one byte and duplicating it gives a block of 2^k bytes: the last byte is lost. *)
Theorem C49_dup_refuted : forall node junk avail moves bits k c, (forall k, avail k = true) ->
  bits <= k -> 3 <= k <= 29 ->
  exists t1 p t2 p' t3 p'' b,
    malloc node junk avail (ThreadInit no_thread bits) (2 ^ k) = Ok (t1, Some p) /\
    realloc node junk avail moves t1 (Some p) (2 ^ k + 1) c = Ok (t2, Some p') /\
    dup_malloc node junk avail t2 (Some p') c = Ok (t3, Some p'') /\
    heap t3 p'' = Some b /\ length b = 2 ^ k.
Proof.
  intros node junk avail moves bits k cc Av Hb Hk.
  assert (P0 : 1 <= 2 ^ k) by (apply Nat.neq_0_lt_0, Nat.pow_nonzero; lia).
  assert (P1 : 2 ^ S k = 2 * 2 ^ k) by apply Nat.pow_succ_r'.
  assert (P2 : 2 ^ k + 1 <= 2 ^ 30).
  { transitivity (2 ^ S k); [rewrite P1; clear - P0; lia|]. apply Nat.pow_le_mono_r; lia. }
  assert (N1 : NormalizeBitPosition (2 ^ k + 1) = Ok (S k)).
  { destruct (norm_ok (2 ^ k + 1) P2) as (p & -> & Q1 & Q2 & Q3). f_equal.
    destruct (Nat.lt_trichotomy p (S k)) as [L|[L|L]]; auto.
    - assert (2 ^ p <= 2 ^ k) by (apply Nat.pow_le_mono_r; lia). clear - H Q2. lia.
    - destruct Q3 as [->|Q3]; [lia|].
      assert (2 ^ S k <= 2 ^ (p - 1)) by (apply Nat.pow_le_mono_r; lia).
      clear - P0 P1 H Q3. lia. }
  set (b0 := fresh junk 0 (2 ^ k + 1)).
  assert (L0 : length b0 = 2 ^ k + 1) by apply fresh_length.
  set (h1 := fupd (fupd (fun _ : nat => @None bytes) 0 (Some b0)) 0 (Some (tagged b0 k))).
  assert (E1 : malloc node junk avail (ThreadInit no_thread bits) (2 ^ k) =
    Ok (Tls (Some (repeat [] bits)) h1 1, Some 0)).
  { unfold malloc. rewrite (proj2 (Nat.eqb_neq _ 0)) by (clear - P0; lia).
    cbn [ThreadInit no_thread main heap req]. rewrite norm_pow by lia. cbn [bind].
    rewrite repeat_length, (proj2 (Nat.leb_le _ _)) by lia. unfold sys_malloc. cbn [main heap req]. rewrite Av.
    rewrite (tag_ok _ _ _ b0); [reflexivity|cbn [heap]; apply fupd_same|clear - L0; lia|lia]. }
  assert (H1 : h1 0 = Some (tagged b0 k)) by apply fupd_same.
  set (b1 := firstn (1 + 2 ^ S k) (tagged b0 k) ++ skipn (length (tagged b0 k)) (fresh junk 1 (1 + 2 ^ S k))).
  assert (L1 : length b1 = 1 + 2 ^ S k).
  { unfold b1. rewrite app_length, firstn_length, skipn_length, fresh_length. unfold tagged. rewrite upd_length, L0.
    clear - P1 P0. lia. }
  assert (B1 : nth_error b1 0 = Some (N.of_nat k)).
  { unfold b1. destruct b0 as [|x b0]; [cbn in L0; clear - L0 P0; lia|]. reflexivity. }
  assert (E2 : exists t2 p', realloc node junk avail moves (Tls (Some (repeat [] bits)) h1 1) (Some 0) (2 ^ k + 1) cc = Ok (t2, Some p') /\
     heap t2 p' = Some b1 /\ p' <> req t2 /\ main t2 = Some (repeat [] bits)).
  { unfold realloc. rewrite (proj2 (Nat.eqb_neq _ 0)) by (clear - P0; lia). rewrite N1. cbn [bind].
    unfold load. cbn [heap]. rewrite H1. unfold rd, tagged at 1. rewrite upd_nth_same by (rewrite L0; clear; lia).
    cbn [bind]. rewrite Nat2N.id. rewrite (proj2 (Nat.leb_gt _ _)) by lia. cbn [main].
    rewrite repeat_length, !(proj2 (Nat.leb_le _ _)) by lia. cbn [andb]. unfold sys_realloc. cbn [heap req main].
    rewrite H1, Av. fold b1. destruct (moves 1); cbn [bind].
    - eexists _, 1. split; [reflexivity|]. cbn [heap req main]. split; [apply fupd_same|]. split; [lia|auto].
    - eexists _, 0. split; [reflexivity|]. cbn [heap req main]. split; [apply fupd_same|]. split; [lia|auto]. }
  destruct E2 as (t2 & p' & E2 & H2 & N2 & M2).
  set (w := firstn (2 ^ k) (skipn 1 b1)).
  assert (Lw : length w = 2 ^ k) by (unfold w; rewrite firstn_length, skipn_length, L1; clear - P1 P0; lia).
  assert (E3 : exists t3, dup_malloc node junk avail t2 (Some p') cc = Ok (t3, Some (req t2)) /\ heap t3 (req t2) = Some w).
  { unfold dup_malloc, load at 1. rewrite H2. unfold rd. rewrite B1. cbn [bind]. rewrite Nat2N.id.
    rewrite shl1_ok by lia. cbn [bind]. unfold sys_malloc. rewrite Av. unfold memcpy. cbn [heap].
    rewrite fupd_same, fupd_other, H2 by auto. unfold slice.
    rewrite (proj2 (Nat.leb_le _ _)) by (rewrite L1; clear - P0 P1; lia). cbn [bind]. fold w.
    unfold blit. rewrite Lw, fresh_length. rewrite (proj2 (Nat.leb_le _ _)) by (clear; lia). cbn [bind firstn app].
    rewrite skipn_all2 by (rewrite fresh_length; clear; lia). rewrite app_nil_r.
    unfold free. cbn [main]. rewrite M2. unfold load. cbn [heap]. rewrite !fupd_other, H2 by auto.
    unfold rd. rewrite B1. cbn [bind]. rewrite Nat2N.id, repeat_length, (proj2 (Nat.leb_le _ _)) by lia.
    unfold sys_free. cbn [heap main req]. rewrite !fupd_other, H2 by auto. cbn [bind].
    eexists. split; [reflexivity|]. cbn [heap]. rewrite fupd_other by auto. apply fupd_same. }
  destruct E3 as (t3 & E3 & H3).
  exists (Tls (Some (repeat [] bits)) h1 1), 0, t2, p', t3, (req t2), w.
  split; [exact E1|]. split; [exact E2|]. split; [exact E3|]. split; [exact H3|exact Lw].
Qed.

(** Out of memory.  With malloc of cached sizes only (and no realloc), for every behaviour of
    the C library: each operation does what it should or answers NULL and changes nothing. *)
Theorem C68_null_when_cached : forall node junk avail moves bits, 3 < bits ->
  forall n, serves_or_null node junk avail moves (small_only bits) n (ThreadInit no_thread bits) nothing.
Proof.
  intros node junk avail moves bits B3 n.
  assert (G : forall n t s q, inv node bits true t s q -> serves_or_null node junk avail moves (small_only bits) n t s).
  { clear n. induction n as [|n IH]; intros t s q I; [exact Logic.I|]. cbn [serves_or_null]. intros o M A.
    assert (X : exists t' q' a s', exec node junk avail moves t o = Ok (t', a) /\
        (step s o a s' \/ a = APtr None /\ s' = s) /\ inv node bits true t' s' q').
    { destruct (avail (req t)) eqn:Av.
      - destruct (exec_ok node junk avail moves bits true t s q o Av I A) as (t' & q' & a & s' & E1 & E2 & E3).
        { destruct o; cbn [small_only mode_ok] in *; try exact Logic.I; try reflexivity. contradiction. }
        exists t', q', a, s'. split; [exact E1|]. split; [left; exact E2|exact E3].
      - destruct o as [m|p m k|p k|p k|p i v|p i]; cbn [small_only allowed] in *.
        + destruct m as [|m].
          * exists t, q, (APtr None), s. split; [reflexivity|]. split; [left; constructor|exact I].
          * apply (malloc_fail node junk avail moves bits true t s q (S m) Av I); auto. clear; lia.
        + contradiction.
        + destruct (live s p) as [c|] eqn:L; [|congruence].
          destruct (free_ok node junk bits true _ _ _ _ _ k I L) as (t' & q' & E1 & E2 & _).
          exists t', q', ANone, (View (fupd (live s) p None) (raw s)). cbn [exec]. rewrite E1.
          split; [reflexivity|]. split; [left; constructor|exact E2].
        + destruct (live s p) as [c|] eqn:L; [|congruence].
          destruct (dup_fail node junk avail bits true _ _ _ _ _ k Av I L) as (t' & E1 & E2).
          exists t', q, (APtr None), s. cbn [exec]. rewrite E1. split; [reflexivity|]. split; [right; split; reflexivity|exact E2].
        + destruct A as (c & L & H). destruct (write_ok node bits true t s q p c i v I L H) as (t' & E1 & E2).
          eexists t', q, _, _. cbn [exec]. rewrite E1. split; [reflexivity|]. split; [left; econstructor; exact L|exact E2].
        + destruct A as (c & L & H). destruct (read_ok node bits true t s q p c i I L H) as (v & E1 & E2).
          eexists t, q, _, _. cbn [exec]. rewrite E1. split; [reflexivity|]. split; [left; econstructor; eassumption|exact I]. }
    destruct X as (t' & q' & a & s' & E1 & E2 & E3). exists t', a, s'. split; [exact E1|]. split; [exact E2|]. eapply IH; eauto. }
  eapply G. apply init_ok.
Qed.

(** REFUTED: the first failing request writes to an address near NULL, for every size that is
    not cached. *)
Theorem C68_malloc_refuted : forall node junk avail bits n, avail 0 = false ->
  2 ^ (bits - 1) < n -> 8 < n -> n <= 2 ^ 30 ->
  malloc node junk avail (ThreadInit no_thread bits) n = UB.
Proof.
  intros node junk avail bits n Av H1 H8 H2. unfold malloc. rewrite (proj2 (Nat.eqb_neq _ 0)) by (clear - H8; lia).
  cbn [ThreadInit no_thread main]. destruct (norm_ok n H2) as (pos & -> & P1 & P2 & P3). cbn [bind].
  rewrite repeat_length. rewrite (proj2 (Nat.leb_le _ _)).
  - unfold sys_malloc. cbn [ThreadInit no_thread main heap req]. now rewrite Av.
  - apply Nat.nlt_ge. intros C. assert (2 ^ pos <= 2 ^ (bits - 1)) by (apply Nat.pow_le_mono_r; lia).
    clear - H H1 P2. lia.
Qed.

(** REFUTED for realloc: when the larger block cannot be had, the contents are copied to NULL. *)
Theorem C68_realloc_refuted : forall node junk avail moves bits m n c, avail 0 = true -> avail 1 = false ->
  0 < m -> m <= 8 -> 8 < n -> n <= 2 ^ 30 -> 3 < bits ->
  exists t p, malloc node junk avail (ThreadInit no_thread bits) m = Ok (t, Some p) /\
    realloc node junk avail moves t (Some p) n c = UB.
Proof.
  intros node junk avail moves bits m n c A0 A1 Hm1 Hm2 Hn1 Hn2 Hb.
  assert (E8 : 2 ^ 3 = 8) by reflexivity.
  assert (E830 : 2 ^ 3 <= 2 ^ 30) by (apply Nat.pow_le_mono_r; lia).
  destruct (malloc_ok node junk avail moves bits true (ThreadInit no_thread bits) nothing (repeat [] bits) m A0 (init_ok _ _ _) Hm1)
    as (t & q & p & b & cc & pos & E1 & E2 & E3 & E4 & E5 & E6 & E7 & I); [clear - Hm2 E8 E830; lia|].
  exists t, p. split; [exact E1|].
  assert (pos = 3).
  { destruct (norm_ok m) as (pos' & F & P1 & P2 & P3); [clear - Hm2 E8 E830; lia|]. rewrite E2 in F. injection F as ->.
    destruct P3; auto. destruct (Nat.eq_dec pos' 3); auto. exfalso.
    assert (2 ^ 3 <= 2 ^ (pos' - 1)) by (apply Nat.pow_le_mono_r; lia). clear - H H0 Hm2 E8. lia. }
  subst pos. destruct E6 as (B0 & _). unfold realloc. rewrite (proj2 (Nat.eqb_neq _ 0)) by (clear - Hn1; lia).
  destruct (norm_ok n Hn2) as (pos & -> & P1 & P2 & P3). cbn [bind].
  unfold load at 1. rewrite E5. unfold rd. rewrite B0. cbn [bind]. rewrite Nat2N.id.
  assert (P4 : 3 < pos).
  { destruct (Nat.eq_dec pos 3) as [->|]; [|lia]. clear - P2 E8 Hn1. lia. }
  rewrite (proj2 (Nat.leb_gt _ _)) by exact P4. rewrite (i_main _ _ _ _ _ _ I).
  assert (Q : q = repeat [] bits /\ req t = 1).
  { revert E1. unfold malloc. rewrite (proj2 (Nat.eqb_neq _ 0)) by (clear - Hm1; lia).
    cbn [ThreadInit no_thread main heap req]. rewrite E2. cbn [bind]. rewrite repeat_length.
    rewrite (proj2 (Nat.leb_gt _ _)) by exact Hb. rewrite nth_repeat_nil. unfold sys_malloc. cbn [main heap req]. rewrite A0.
    rewrite (tag_ok _ _ _ (fresh junk 0 (Nat.max (2 ^ 3 + 1) node))); [|cbn [heap]; apply fupd_same|rewrite fresh_length; lia|lia].
    intros E. injection E as E _. pose proof (i_main _ _ _ _ _ _ I) as M. rewrite <- E in *. cbn [main req] in *. split; congruence. }
  destruct Q as [-> Q]. rewrite repeat_length, (proj2 (Nat.leb_gt bits 3)) by exact Hb. rewrite andb_false_r.
  unfold malloc. rewrite (proj2 (Nat.eqb_neq _ 0)) by (apply Nat.pow_nonzero; clear; lia).
  rewrite (i_main _ _ _ _ _ _ I), norm_pow by lia. cbn [bind]. rewrite repeat_length.
  destruct (bits <=? pos).
  - unfold sys_malloc. rewrite Q, A1. reflexivity.
  - rewrite nth_repeat_nil. unfold sys_malloc. rewrite Q, A1. reflexivity.
Qed.

(** Cached sizes up to 16 bytes (5 bits), nodes of 16 bytes.  Blocks of 10, 3 and 20 bytes;
    the first is freed and given out again; the third is grown (it is not cached, and moves);
    a block is duplicated. *)
Definition ex_run (l : list op) : res (tls * list answer) :=
  fold_left (fun r o => let* (t, l) := r in
    let* (t1, a) := exec 16 (fun _ _ => 170%N) (fun _ => true) (fun _ => true) t o in Ok (t1, l ++ [a]))
    l (Ok (ThreadInit no_thread 5, [])).
Example C48_example :
  match ex_run [KMalloc 10; KMalloc 3; KMalloc 20; KWrite 0 9 7; KWrite 1 2 8; KWrite 2 19 9;
      KFree 0 true; KMalloc 12; KRead 1 2; KRealloc 1 9 true; KRead 3 2; KRealloc 2 40 true; KRead 4 19;
      KDup 3 true; KMalloc 5] with
  | Ok (_, l) => l = [APtr (Some 0); APtr (Some 1); APtr (Some 2); ANone; ANone; ANone;
      ANone; APtr (Some 0); AByte 8; APtr (Some 3); AByte 8; APtr (Some 4); AByte 9;
      APtr (Some 5); APtr (Some 1)]
  | _ => False
  end.
Proof. vm_compute. reflexivity. Qed.

(** The 40 byte block (its number is 1 after the move) is duplicated into 32 bytes. *)
Example C49_example :
  match ex_run [KMalloc 20; KRealloc 0 40 true; KWrite 1 39 9; KDup 1 true] with
  | Ok (t, l) => l = [APtr (Some 0); APtr (Some 1); ANone; APtr (Some 2)] /\
      match heap t 2 with Some b => length b = 32 | None => False end
  | _ => False
  end.
Proof. vm_compute. repeat split; reflexivity. Qed.

(** Without memory: 16 bytes is a cached size and NULL is answered; 17 bytes is not. *)
Example C68_example :
  match malloc 16 (fun _ _ => 0%N) (fun _ => false) (ThreadInit no_thread 5) 16 with
  | Ok (_, p) => p = None | _ => False end /\
  malloc 16 (fun _ _ => 0%N) (fun _ => false) (ThreadInit no_thread 5) 17 = UB.
Proof. split; vm_compute; reflexivity. Qed.

Print Assumptions C48_allocator.
Print Assumptions C49_keep_contents.
Print Assumptions C49_dup_refuted.
Print Assumptions C68_null_when_cached.
Print Assumptions C68_malloc_refuted.
Print Assumptions C68_realloc_refuted.
