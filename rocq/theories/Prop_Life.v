(** C116, C117, C118: creating, using and destroying synchronisation objects. *)
From Verif Require Import Base M_Life S_Life P_Life P_Life2.
Open Scope nat_scope.

(** ** C116: everything an object acquires is released, once *)

(** Semaphore, Event, ReadWriteLock on POSIX: any calls, then the destructor *)
Theorem C116_posix : forall w ops, exists w' o' bs n,
  run p_step w p_new ops = Ok (w', o', bs) /\ p_destroy w' o' = Ok (World (live w) n).
Proof.
  intros w ops. destruct (p_run ops w p_new (live w) eq_refl) as (w' & o' & E1 & E2).
  eexists _, _, _, _. split; [exact E1|]. apply free_head, E2.
Qed.

(** SharedMem on POSIX *)
Theorem C116_shared : forall w ops, exists w' m' bs n,
  run sp_step w None ops = Ok (w', m', bs) /\ sp_destroy w' m' = Ok (World (live w) n).
Proof.
  intros w ops. destruct (sp_run ops w None (live w) eq_refl) as (w' & o' & E1 & E2).
  eexists _, _, _, _. split; [exact E1|]. apply free_head, E2.
Qed.

(** Semaphore and Event on Windows *)
Theorem C116_win : forall w ops, exists w' h' bs n,
  run w_step w None ops = Ok (w', h', bs) /\ w_destroy w' h' = Ok (World (live w) n).
Proof.
  intros w ops. destruct (w_run ops w None (live w) eq_refl) as (w' & o' & E1 & E2).
  eexists _, _, _, _. split; [exact E1|]. apply free_head, E2.
Qed.

(** ReadWriteLock on Windows, whichever of its system calls fail *)
Theorem C116_win_rw : forall w ops, exists w' o' bs n,
  run rw_step w rw_new ops = Ok (w', o', bs) /\ rw_destroy w' o' = Ok (World (live w) n).
Proof.
  intros w ops. destruct (rw_run ops w rw_new (live w) eq_refl) as (w' & o' & E1 & E2).
  eexists _, _, _, _. split; [exact E1|]. apply rw_free, E2.
Qed.

(** SharedMem on Windows: what stays behind is one block for every Create for which both system calls
    failed, and nothing else *)
Theorem C116_win_shared : forall w ops, exists w' o' n junk,
  run ws_step w ws_new ops = Ok (w', o', map ws_said ops) /\ ws_destroy w' o' = Ok (World (junk ++ live w) n) /\
  Forall (fun p => snd p = Heap) junk /\ length junk = length (filter lost_name ops).
Proof.
  intros w ops. destruct (ws_run ops w ws_new (live w) eq_refl) as (w' & o' & j & E1 & E2 & E3 & E4).
  exists w', o', (next w'), j. split; [exact E1|]. split; [|auto]. apply ws_free, E2.
Qed.

Theorem C116_win_shared_refuted : forall w k, exists w' o' junk n,
  run ws_step w ws_new (repeat (WSCreate true false false false) k) = Ok (w', o', repeat false k) /\
  ws_destroy w' o' = Ok (World (junk ++ live w) n) /\ length junk = k.
Proof.
  intros w k. destruct (C116_win_shared w (repeat (WSCreate true false false false) k)) as (w' & o' & n & j & E1 & E2 & _ & E4).
  exists w', o', j, n. split; [|split; [exact E2|]].
  - rewrite E1. do 2 f_equal. clear. induction k; cbn; [reflexivity|f_equal; exact IHk].
  - rewrite E4. clear. induction k; cbn; [reflexivity|f_equal; exact IHk].
Qed.

(** Mutex on Windows: one handle stays open for every Create of a mutex that exists and nobody holds *)
Theorem C116_win_mutex : forall w ops t, exists w' o' bs n junk,
  run wm_step w wm_new ops = Ok (w', o', bs) /\ wm_destroy w' o' t = Ok (World (junk ++ live w) n) /\
  Forall (fun p => snd p = Handle) junk /\ length junk = lost_handles false None ops.
Proof.
  intros w ops t. destruct (wm_run ops w wm_new None (live w) eq_refl) as (w' & o' & bs & h' & j & E1 & E2 & E3 & E4 & E5); [cbn; auto|].
  exists w', o', bs, (next w'), j. split; [exact E1|]. split; [|auto]. exact (wm_end _ _ _ _ _ E2 E3).
Qed.

Theorem C116_win_mutex_refuted : forall w t k, exists w' o' bs n junk,
  run wm_step w wm_new (repeat (MCreate t true) (S k)) = Ok (w', o', bs) /\
  wm_destroy w' o' t = Ok (World (junk ++ live w) n) /\ length junk = k.
Proof.
  intros w t k. destruct (C116_win_mutex w (repeat (MCreate t true) (S k)) t) as (w' & o' & bs & n & j & E1 & E2 & _ & E4).
  exists w', o', bs, n, j. split; [exact E1|]. split; [exact E2|]. rewrite E4. clear. cbn. induction k; cbn; [reflexivity|f_equal; exact IHk].
Qed.

(** Mutex on POSIX: if Create is only called on mutexes that do not exist or are held, the references
    counted for every name are those of the objects that use it, and the live blocks are those of the
    objects without a name *)
Theorem C116_mutex : forall k es s bs, x_run (x_start k) (map op_of es) = Ok (s, bs) ->
  proper_seen thrifty (repeat blank k) es bs ->
  (forall n, s_refs s n = length (filter (of_name n) (watch (repeat blank k) es bs))) /\
  s_heap s = length (filter (fun o => match place o with Some None => true | _ => false end) (watch (repeat blank k) es bs)).
Proof. intros k es s bs H D. exact (run_thrifty es _ _ s bs (start_ok false k) (start_T k) H D). Qed.

(** otherwise they pile up: created [S k] times and destroyed, [k] blocks, or references, remain *)
Theorem C116_mutex_refuted : forall k t name, exists s bs,
  x_run (x_start 1) (repeat (XCreate 0 t name true) (S k) ++ [XDestroy 0 t]) = Ok (s, bs) /\
  s_objs s = [mx_new] /\
  match name with None => s_heap s = k | Some n => s_refs s n = k end.
Proof.
  intros k t name.
  assert (G : forall j s, (exists m, s_objs s = [Mx m (match name with None => match m with None => 0 | _ => 1 end | _ => 0 end) 0 None] /\ (m = None \/ m = Some name)) ->
    exists s' bs, x_run s (repeat (XCreate 0 t name true) (S j)) = Ok (s', bs) /\
      s_objs s' = [Mx (Some name) (match name with None => 1 | _ => 0 end) 0 None] /\
      match name with None => s_heap s' = s_heap s + S j | Some n => s_refs s' n = s_refs s n + S j end).
  { induction j as [|j IH]; intros s (m & E & M).
    - cbn. unfold x_step. rewrite E. cbn. unfold x_create. cbn. destruct name as [n|]; cbn; rewrite ?E; eexists _, _; (split; [reflexivity|]); cbn; (split; [reflexivity|]);
        unfold put; rewrite ?Nat.eqb_refl; lia.
    - remember (S j) as j1. cbn [repeat]. subst j1. cbn [x_run]. unfold x_step at 1. rewrite E. cbn [nth_error bind]. unfold x_create. cbn [m_cnt Nat.ltb Nat.leb].
      destruct name as [n|]; cbn [x_init s_objs set_obj m_cnt m_owner bind].
      + rewrite E. cbn [set_obj].
        match goal with |- context [x_run ?s1 _] => destruct (IH s1) as (s' & bs & E1 & E2 & E3); [exists (Some (Some n)); cbn; auto|] end.
        rewrite E1. eexists _, _. split; [reflexivity|]. split; [exact E2|]. rewrite E3. cbn. unfold put. rewrite Nat.eqb_refl. lia.
      + rewrite E. cbn [set_obj].
        match goal with |- context [x_run ?s1 _] => destruct (IH s1) as (s' & bs & E1 & E2 & E3); [exists (Some None); cbn; auto|] end.
        rewrite E1. eexists _, _. split; [reflexivity|]. split; [exact E2|]. rewrite E3. cbn. lia. }
  assert (APP : forall l1 l2 s s1 b1 s2 b2, x_run s l1 = Ok (s1, b1) -> x_run s1 l2 = Ok (s2, b2) -> x_run s (l1 ++ l2) = Ok (s2, b1 ++ b2)).
  { induction l1 as [|op l1 IH]; intros l2 s s1 b1 s2 b2 H1 H2; cbn [x_run app] in *.
    - injection H1 as <- <-. exact H2.
    - destruct (x_step s op) as [[s0 b0]| |]; cbn [bind] in *; try discriminate.
      destruct (x_run s0 l1) as [[s3 b3]| |] eqn:X; cbn [bind] in *; try discriminate. injection H1 as <- <-.
      rewrite (IH _ _ _ _ _ _ X H2). reflexivity. }
  destruct (G k (x_start 1)) as (s1 & bs & E1 & E2 & E3); [exists None; cbn; destruct name; auto|].
  set (o := Mx (Some name) (match name with None => 1 | _ => 0 end) 0 None) in *.
  assert (E4 : exists s2, x_run s1 [XDestroy 0 t] = Ok (s2, [true]) /\ s_objs s2 = [mx_new] /\ match name with None => s_heap s2 = k | Some n => s_refs s2 n = k end).
  { cbn [x_run]. unfold x_step. rewrite E2. cbn [nth_error]. unfold x_destroy, x_unlock, o. cbn. destruct name as [n|]; cbn in *.
    - eexists. split; [reflexivity|]. cbn. rewrite E2. split; [reflexivity|]. unfold put. rewrite Nat.eqb_refl. lia.
    - eexists. split; [reflexivity|]. cbn. rewrite E2. split; [reflexivity|]. lia. }
  destruct E4 as (s2 & E4 & E5 & E6). exists s2, (bs ++ [true]). split; [exact (APP _ _ _ _ _ _ _ E1 E4)|]. auto.
Qed.

(** ** C117: an object can be used exactly when its last Create succeeded *)

Theorem C117_posix : forall w ops w' o' bs, run p_step w p_new ops = Ok (w', o', bs) -> bs = answers false (map p_call ops).
Proof.
  intros w ops w' o' bs H. destruct (p_run ops w p_new (live w) eq_refl) as (w2 & o2 & E1 & _). rewrite E1 in H. injection H as _ _ <-. reflexivity.
Qed.

Theorem C117_win : forall w ops w' h' bs, run w_step w None ops = Ok (w', h', bs) -> bs = answers false (map w_call ops).
Proof.
  intros w ops w' o' bs H. destruct (w_run ops w None (live w) eq_refl) as (w2 & o2 & E1 & _). rewrite E1 in H. injection H as _ _ <-. reflexivity.
Qed.

(** the reader-writer lock on Windows: every call asks for some of the four handles only *)
Theorem C117_win_rw : forall w ops w' o' bs, run rw_step w rw_new ops = Ok (w', o', bs) -> bs = rw_answers false false false false ops.
Proof.
  intros w ops w' o' bs H. destruct (rw_run ops w rw_new (live w) eq_refl) as (w2 & o2 & E1 & _). rewrite E1 in H. injection H as _ _ <-. reflexivity.
Qed.

(** so that it can be locked for writing, but not for reading, after Create has failed *)
Theorem C117_win_rw_refuted : forall w name, exists w' o',
  run rw_step w rw_new [RCreate name false true true true; RWriteLock; RReadLock] = Ok (w', o', [false; true; false]).
Proof.
  intros w name. destruct (rw_run [RCreate name false true true true; RWriteLock; RReadLock] w rw_new (live w) eq_refl) as (w2 & o2 & E1 & _).
  exists w2, o2. exact E1.
Qed.

(** the mutex on Windows *)
Theorem C117_win_mutex : forall w ops w1 o1 bs t u got w' o' bs', run wm_step w wm_new ops = Ok (w1, o1, bs) ->
  run wm_step w1 o1 [MCreate t false; MLock u got] = Ok (w', o', bs') ->
  bs' = [false; false] \/ (wm_owner o1 <> None /\ wm_owner o1 <> Some t).
Proof.
  intros w ops w1 o1 bs t u got w' o' bs' H1 H2.
  destruct (wm_run ops w wm_new None (live w) eq_refl) as (w2 & o2 & bs2 & h & j & E1 & E2 & E3 & _); [cbn; auto|].
  rewrite E1 in H1. injection H1 as -> -> ->. cbn [run wm_step] in H2. destruct h as [[v d]|].
  - destruct E3 as (O1 & O2 & O3 & O4). rewrite O1, O2 in H2. replace (0 <? d) with true in H2 by (symmetry; apply Nat.ltb_lt; exact O3).
    cbn [owned] in H2. destruct (Nat.eqb_spec v t) as [->|N].
    + rewrite (free_head _ _ _ _ E2) in H2. cbn in H2. injection H2 as _ _ <-. left. reflexivity.
    + right. rewrite O1. split; congruence.
  - destruct E3 as (O1 & O2). rewrite O1, O2 in H2. cbn in H2. injection H2 as _ _ <-. left. reflexivity.
Qed.

(** the mutex on POSIX uses its pointers without asking: before Create, and after one that failed *)
Theorem C117_mutex_refuted : forall k i t u n, i < k ->
  x_run (x_start k) [XLock i u] = UB /\ x_run (x_start k) [XCreate i t (Some n) false; XLock i u] = UB.
Proof.
  intros k i t u n H.
  assert (E : nth_error (repeat mx_new k) i = Some mx_new).
  { revert i H. induction k; intros [|i] H; cbn; try lia; [reflexivity|]. apply IHk. lia. }
  assert (E2 : forall o, nth_error (set_obj (repeat mx_new k) i o) i = Some o).
  { intros o. clear E. revert i H. induction k; intros [|i] H; cbn; try lia; [reflexivity|]. apply IHk. lia. }
  split; cbn [x_run]; unfold x_step at 1; cbn [x_start s_objs]; rewrite E.
  - reflexivity.
  - cbn [x_create mx_new m_cnt Nat.ltb Nat.leb x_init bind]. unfold x_create. cbn. unfold x_step. cbn [s_objs]. rewrite E2. reflexivity.
Qed.

(** ** C118: mutexes that share a name *)

Lemma cnt_two : forall P l i j a b, nth_error l i = Some a -> nth_error l j = Some b -> P a = true -> P b = true -> i < j -> 2 <= cnt P l.
Proof.
  unfold cnt. induction l as [|h t IH]; intros [|i] [|j] a b E1 E2 A B L; cbn in *; try lia; try discriminate.
  - injection E1 as ->. rewrite A. cbn. pose proof (cnt_nth P t j b E2 B). unfold cnt in *. lia.
  - pose proof (IH i j a b E1 E2 A B ltac:(lia)). destruct (P h); cbn; lia.
Qed.

(** whatever is called, no two objects of one name are held at once *)
Theorem C118_excl : forall k es s bs, x_run (x_start k) (map op_of es) = Ok (s, bs) ->
  forall i j a b n, nth_error (watch (repeat blank k) es bs) i = Some a -> nth_error (watch (repeat blank k) es bs) j = Some b ->
  place a = Some (Some n) -> place b = Some (Some n) -> holder a <> None -> holder b <> None -> i = j.
Proof.
  intros k es s bs H i j a b n EA EB PA PB HA HB. pose proof (run_any es _ _ s bs (start_ok false k) H) as [_ N].
  destruct (N n) as [N1 N2].
  assert (A : on n a = true) by (unfold on, of_name, held; rewrite PA, Nat.eqb_refl; destruct (holder a); [reflexivity|congruence]).
  assert (B : on n b = true) by (unfold on, of_name, held; rewrite PB, Nat.eqb_refl; destruct (holder b); [reflexivity|congruence]).
  pose proof (cnt_nth _ _ _ _ EA (on_name _ _ A)).
  destruct (Nat.lt_total i j) as [L|[L|L]]; [|exact L|]; exfalso.
  - pose proof (cnt_two _ _ _ _ _ _ EA EB A B L). lia.
  - pose proof (cnt_two _ _ _ _ _ _ EB EA B A L). lia.
Qed.

(** orderly calls all work and answer what they should: in particular a lock that nobody holds can be had *)
Theorem C118_answers : forall k es, proper orderly (repeat blank k) es ->
  exists s, x_run (x_start k) (map op_of es) = Ok (s, expected (repeat blank k) es).
Proof. intros k es D. destruct (run_orderly es _ _ (start_ok true k) D) as (s & E & _). eauto. Qed.

Definition only_locks (e : event) : bool := match e with Acquire _ _ | Release _ _ _ => true | _ => false end.

Definition stuck (n : nat) (s : sys) : Prop :=
  s_val s n = 0 /\ exists o, s_objs s = [o; Mx (Some (Some n)) 0 0 None] /\ m_place o <> None /\ (m_place o = Some (Some n) -> m_owner o = None).

Lemma stuck_step : forall n s e, stuck n s -> only_locks e = true ->
  exists s' b, x_step s (op_of e) = Ok (s', b) /\ stuck n s' /\ (forall u, e = Acquire 1 u -> b = false).
Proof.
  intros n s e (V & o & E & P & Q) D. unfold x_step. rewrite E.
  destruct e as [?|i t|i t all|?]; try discriminate; cbn [op_of].
  - destruct i as [|[|i]]; cbn [nth_error].
    + unfold x_lock. rewrite E. destruct (owned (m_owner o) t) eqn:W.
      * eexists _, _. split; [reflexivity|]. split; [|discriminate]. split; [exact V|]. eexists. cbn. split; [reflexivity|]. auto.
      * destruct (m_place o) as [[m|]|] eqn:M; [| |congruence].
        -- destruct (Nat.eqb_spec (s_val s m) 0) as [Z|Z].
           ++ exists s, false. split; [reflexivity|]. split; [|discriminate]. split; [exact V|]. exists o. rewrite M. auto.
           ++ eexists _, _. split; [reflexivity|]. split; [|discriminate].
              assert (m <> n) by congruence. split; [cbn; unfold put; destruct (Nat.eqb_spec n m); congruence|].
              eexists. cbn. split; [reflexivity|]. cbn. split; [congruence|intros; congruence].
        -- destruct (m_sem o =? 0); (eexists _, _; split; [reflexivity|]; split; [|discriminate]; split; [exact V|]).
           ++ exists o. rewrite M. auto.
           ++ eexists. cbn. split; [reflexivity|]. cbn. split; [congruence|intros; congruence].
    + unfold x_lock. cbn [m_owner owned m_place]. rewrite V. exists s, false. split; [reflexivity|]. split; [|reflexivity].
      split; [exact V|]. eauto.
    + assert (X : nth_error (@nil mx) i = None) by (destruct i; reflexivity). rewrite X.
      exists s, false. split; [reflexivity|]. split; [|reflexivity]. split; [exact V|]. eauto.
  - destruct i as [|[|i]]; cbn [nth_error].
    + unfold x_unlock. rewrite E. destruct (owned (m_owner o) t) eqn:W; cbn [negb].
      * destruct (m_place o) as [[m|]|] eqn:M; [| |congruence].
        -- assert (m <> n). { intros ->. rewrite (Q eq_refl) in W. discriminate. }
           destruct ((if all then 1 else m_cnt o) - 1 =? 0); (eexists _, _; split; [reflexivity|]; split; [|discriminate]).
           ++ split; [cbn; unfold put; destruct (Nat.eqb_spec n m); congruence|]. eexists. cbn. split; [reflexivity|]. cbn. split; [congruence|intros; congruence].
           ++ split; [exact V|]. eexists. cbn. split; [reflexivity|]. cbn. split; [congruence|intros; congruence].
        -- destruct ((if all then 1 else m_cnt o) - 1 =? 0); (eexists _, _; split; [reflexivity|]; split; [|discriminate]; split; [exact V|]; eexists; cbn; split; [reflexivity|]; cbn; split; [congruence|intros; congruence]).
      * exists s, false. split; [reflexivity|]. split; [|discriminate]. split; [exact V|]. eauto.
    + exists s, false. split; [reflexivity|]. split; [|discriminate]. split; [exact V|]. eauto.
    + assert (X : nth_error (@nil mx) i = None) by (destruct i; reflexivity). rewrite X.
      exists s, false. split; [reflexivity|]. split; [|discriminate]. split; [exact V|]. eauto.
Qed.

(** A thread that holds a named mutex creates it again (under any name, or none): the lock is nobody's,
    and nobody can have it, ever.  Another object of that name is there all the time. *)
Theorem C118_refuted : forall n t m es, Forall (fun e => only_locks e = true) es ->
  let before := [Make 0 t (Some n) true; Make 1 t (Some n) true; Acquire 0 t; Make 0 t m true] in
  (forall u, expected (repeat blank 2) (before ++ [Acquire 1 u]) = [true; true; true; true; true]) /\
  exists s bs, x_run (x_start 2) (map op_of (before ++ es)) = Ok (s, [true; true; true; true] ++ bs) /\
    Forall2 (fun e b => forall u, e = Acquire 1 u -> b = false) es bs.
Proof.
  intros n t m es D before. split.
  - intros u. cbn. rewrite !Nat.eqb_refl. cbn. unfold held_by_other, held_by, held. cbn. rewrite !Nat.eqb_refl. cbn.
    destruct m as [m|]; cbn; [destruct (m =? n)|]; cbn; rewrite ?Nat.eqb_refl; reflexivity.
  - assert (ST : exists s, x_run (x_start 2) (map op_of before) = Ok (s, [true; true; true; true]) /\ stuck n s).
    { cbn. unfold x_step. cbn. unfold x_create. cbn. unfold put. rewrite ?Nat.eqb_refl. cbn. rewrite ?Nat.eqb_refl. cbn.
      unfold x_lock. cbn. rewrite ?Nat.eqb_refl. cbn. rewrite ?Nat.eqb_refl. cbn. unfold x_drop. cbn.
      destruct m as [m|]; cbn.
      - eexists. split; [reflexivity|]. split; cbn.
        + unfold put. destruct (Nat.eqb_spec m n) as [->|N]; cbn; rewrite ?Nat.eqb_refl; [reflexivity|].
          destruct (Nat.eqb_spec n m); [congruence|]. cbn. rewrite ?Nat.eqb_refl. reflexivity.
        + eexists. split; [reflexivity|]. cbn. split; [discriminate|reflexivity].
      - eexists. split; [reflexivity|]. split; cbn.
        + unfold put. rewrite Nat.eqb_refl. reflexivity.
        + eexists. split; [reflexivity|]. cbn. split; [discriminate|reflexivity]. }
    destruct ST as (s1 & E1 & ST).
    assert (G : forall es s, Forall (fun e => only_locks e = true) es -> stuck n s ->
      exists s' bs, x_run s (map op_of es) = Ok (s', bs) /\ Forall2 (fun e b => forall u, e = Acquire 1 u -> b = false) es bs).
    { clear. induction es as [|e es IH]; intros s D S.
      - exists s, []. split; [reflexivity|constructor].
      - inversion D as [|? ? D1 D2]; subst. destruct (stuck_step n s e S D1) as (s1 & b & E & S1 & A).
        destruct (IH s1 D2 S1) as (s2 & bs & E2 & A2). exists s2, (b :: bs). cbn [map x_run]. rewrite E. cbn [bind]. rewrite E2. split; [reflexivity|].
        constructor; assumption. }
    destruct (G es s1 D ST) as (s2 & bs & E2 & A). exists s2, bs. split; [|exact A].
    rewrite map_app. clearbody before. clear - E1 E2.
    assert (APP : forall l1 l2 s s1 b1 s2 b2, x_run s l1 = Ok (s1, b1) -> x_run s1 l2 = Ok (s2, b2) -> x_run s (l1 ++ l2) = Ok (s2, b1 ++ b2)).
    { induction l1 as [|op l1 IH]; intros l2 s s0 b1 s3 b2 H1 H2; cbn [x_run app] in *.
      - injection H1 as <- <-. exact H2.
      - destruct (x_step s op) as [[s4 b0]| |]; cbn [bind] in *; try discriminate.
        destruct (x_run s4 l1) as [[s5 b3]| |] eqn:X; cbn [bind] in *; try discriminate. injection H1 as <- <-.
        rewrite (IH _ _ _ _ _ _ X H2). reflexivity. }
    exact (APP _ _ _ _ _ _ _ E1 E2).
Qed.

(** ** Cases *)

(** an event is created with a name, then without, then fails; it is asked in between *)
Example C116_ex : run p_step (World [(7, Heap)] 8) p_new [PUse; PCreate true true; PUse; PCreate false false; PUse; PCreate true false; PUse]
  = Ok (World [(7, Heap)] 10, Pobj true None, [false; true; true; true; true; false; false]).
Proof. reflexivity. Qed.

(** a named reader-writer lock on Windows whose event cannot be created, then a second try *)
Example C116_ex2 : (let* (w, o, bs) := run rw_step (World [] 0) rw_new [RCreate true true true false true; RWriteUnlock; RCreate false true true true true; RReadLock] in
    let* w2 := rw_destroy w o in Ok (bs, length (live w), w2)) = Ok ([false; true; true; true], 4, World [] 8).
Proof. vm_compute. reflexivity. Qed.

(** a mutex without a name is created again while it is held, and again when it is not *)
Example C116_ex3 : (let* (s, bs) := x_run (x_start 1) [XCreate 0 5 None true; XLock 0 5; XCreate 0 5 None true; XDestroy 0 5; XCreate 0 5 None true; XCreate 0 5 None true; XDestroy 0 5] in Ok (s_heap s, bs))
  = Ok (1, [true; true; true; true; true; true; true]).
Proof. vm_compute. reflexivity. Qed.

Example C117_ex : answers false [None; Some true; None; Some false; None] = [false; true; true; false; false].
Proof. reflexivity. Qed.

(** two objects of name 3, and one of name 4, used by threads 5 and 6 *)
Example C118_ex : (let* (_, bs) := x_run (x_start 3) (map op_of
  [Make 0 5 (Some 3) true; Make 1 6 (Some 3) true; Make 2 6 (Some 4) true; Acquire 0 5; Acquire 0 5; Acquire 1 6; Acquire 2 6;
   Release 0 5 false; Acquire 1 6; Release 0 5 false; Acquire 1 6; Release 0 5 false; Destroy 1 6; Acquire 0 5]) in Ok bs)
  = Ok [true; true; true; true; true; false; true; true; false; true; true; false; true; true].
Proof. vm_compute. reflexivity. Qed.

Print Assumptions C116_posix.
Print Assumptions C116_shared.
Print Assumptions C116_win.
Print Assumptions C116_win_rw.
Print Assumptions C116_win_shared.
Print Assumptions C116_win_shared_refuted.
Print Assumptions C116_win_mutex.
Print Assumptions C116_win_mutex_refuted.
Print Assumptions C116_mutex.
Print Assumptions C116_mutex_refuted.
Print Assumptions C117_posix.
Print Assumptions C117_win.
Print Assumptions C117_win_rw.
Print Assumptions C117_win_rw_refuted.
Print Assumptions C117_win_mutex.
Print Assumptions C117_mutex_refuted.
Print Assumptions C118_excl.
Print Assumptions C118_answers.
Print Assumptions C118_refuted.
