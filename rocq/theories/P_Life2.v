(** Proofs about the life of single objects: nothing is lost, nothing is released twice. *)
From Verif Require Import Base M_Life S_Life.
Open Scope nat_scope.

(** what the calls have to answer *)
Definition p_call (op : p_op) : call := match op with PCreate name ok => Some (negb name || ok) | PUse => None end.
Definition w_call (op : w_op) : call := match op with WCreate ok => Some ok | WUse => None end.
Definition sp_said (op : s_op) : bool := match op with SCreate name ok => name && ok end.
Definition ws_said (op : ws_op) : bool := match op with WSCreate name made opened mapped => name && (made || opened) && mapped end.

(** the reader-writer lock on Windows: which of the four handles the last Create got *)
Fixpoint rw_answers (b0 b1 b2 b3 : bool) (l : list rw_op) : list bool :=
  match l with
  | [] => []
  | RCreate _ c0 c1 c2 c3 :: r => (c0 && c1 && c2 && c3) :: rw_answers c0 c1 c2 c3 r
  | RReadLock :: r => (b0 && b1 && b2 && b3) :: rw_answers b0 b1 b2 b3 r
  | RWriteLock :: r => (b2 && b3) :: rw_answers b0 b1 b2 b3 r
  | RReadUnlock :: r => (b0 && b1 && b2) :: rw_answers b0 b1 b2 b3 r
  | RWriteUnlock :: r => b3 :: rw_answers b0 b1 b2 b3 r
  end.

(** shared memory on Windows: calls for which neither system call gives a mapping *)
Definition lost_name (op : ws_op) : bool :=
  match op with WSCreate name made opened _ => name && negb made && negb opened end.

(** the mutex on Windows: calls of Create on a mutex that exists and nobody holds *)
Fixpoint lost_handles (open : bool) (h : option (nat * nat)) (l : list wm_op) : nat :=
  match l with
  | [] => 0
  | MCreate t ok :: r =>
      match h with
      | None => (if open then 1 else 0) + lost_handles ok None r
      | Some (u, d) => if u =? t then lost_handles ok None r else lost_handles open h r
      end
  | MLock t got :: r =>
      if open then
        match h with
        | Some (u, d) => if u =? t then lost_handles open (Some (u, S d)) r
                         else if got then lost_handles open (Some (t, 1)) r else lost_handles open h r
        | None => if got then lost_handles open (Some (t, 1)) r else lost_handles open h r
        end
      else lost_handles open h r
  | MUnlock t all :: r =>
      match h with
      | Some (u, S (S d)) => if u =? t then lost_handles open (if all then None else Some (u, S d)) r else lost_handles open h r
      | Some (u, _) => if u =? t then lost_handles open None r else lost_handles open h r
      | None => lost_handles open h r
      end
  end.

Definition opt (k : kind) (m : option nat) : list (nat * kind) := match m with None => [] | Some r => [(r, k)] end.
Definition is_some {A} (m : option A) : bool := match m with Some _ => true | None => false end.

Lemma kind_refl : forall k, kind_eqb k k = true.
Proof. destruct k; reflexivity. Qed.

Lemma free_head : forall w k m X, live w = opt k m ++ X -> free_opt w k m = Ok (World X (next w)).
Proof.
  intros [l n] k [r|] X E; cbn in E; subst l; cbn.
  - unfold free. cbn. rewrite Nat.eqb_refl, kind_refl. reflexivity.
  - reflexivity.
Qed.

Lemma in_live : forall w k r, In (r, k) (live w) -> is_live w k r = true.
Proof.
  intros [l n] k r. unfold is_live. cbn. induction l as [|[r' k'] t IH]; intros H; [contradiction|]. cbn.
  destruct ((r' =? r) && kind_eqb k' k) eqn:B; [reflexivity|].
  destruct H as [H|H]; [injection H as -> ->; rewrite Nat.eqb_refl, kind_refl in B; discriminate|].
  specialize (IH H). destruct (take_out t k r); [reflexivity|discriminate].
Qed.

(** ** POSIX *)

Lemma p_run : forall ops w o L, live w = opt (p_kind (p_named o)) (p_mem o) ++ L ->
  exists w' o', run p_step w o ops = Ok (w', o', answers (is_some (p_mem o)) (map p_call ops)) /\
    live w' = opt (p_kind (p_named o')) (p_mem o') ++ L.
Proof.
  induction ops as [|op ops IH]; intros w o L E; cbn [run map answers]; [eauto|].
  destruct op as [name ok|]; cbn [p_step p_call answers].
  - unfold p_create, p_destroy. rewrite (free_head _ _ _ _ E). cbn [bind].
    destruct (negb name || ok) eqn:B.
    + cbn [new next live bind]. destruct (IH (World ((next w, p_kind name) :: L) (S (next w))) (Pobj name (Some (next w))) L eq_refl) as (w' & o' & E1 & E2).
      rewrite E1. cbn [bind]. exists w', o'. auto.
    + cbn [bind]. destruct (IH (World L (next w)) (Pobj name None) L eq_refl) as (w' & o' & E1 & E2).
      rewrite E1. exists w', o'. auto.
  - destruct (p_mem o) as [r|] eqn:M.
    + rewrite in_live by (rewrite E; cbn; auto). cbn [bind]. rewrite <- M in E. destruct (IH w o L E) as (w' & o' & E1 & E2).
      rewrite E1, M. cbn [bind is_some]. exists w', o'. auto.
    + cbn [bind]. rewrite <- M in E. destruct (IH w o L E) as (w' & o' & E1 & E2).
      rewrite E1, M. cbn [bind is_some]. exists w', o'. auto.
Qed.

Lemma sp_run : forall ops w m L, live w = opt Mapping m ++ L ->
  exists w' m', run sp_step w m ops = Ok (w', m', map sp_said ops) /\ live w' = opt Mapping m' ++ L.
Proof.
  induction ops as [|[name ok] ops IH]; intros w m L E; cbn [run map]; [eauto|]. cbn [sp_step sp_said].
  destruct name; cbn [negb andb].
  - rewrite (free_head _ _ _ _ E). cbn [bind]. destruct ok; cbn [new_opt new next live bind].
    + destruct (IH (World ((next w, Mapping) :: L) (S (next w))) (Some (next w)) L eq_refl) as (w' & m' & E1 & E2).
      rewrite E1. exists w', m'. auto.
    + destruct (IH (World L (next w)) None L eq_refl) as (w' & m' & E1 & E2). rewrite E1. exists w', m'. auto.
  - cbn [bind]. destruct (IH w m L E) as (w' & m' & E1 & E2). rewrite E1. exists w', m'. auto.
Qed.

(** ** Windows *)

Lemma w_run : forall ops w h L, live w = opt Handle h ++ L ->
  exists w' h', run w_step w h ops = Ok (w', h', answers (is_some h) (map w_call ops)) /\ live w' = opt Handle h' ++ L.
Proof.
  induction ops as [|op ops IH]; intros w h L E; cbn [run map answers]; [eauto|].
  destruct op as [ok|]; cbn [w_step w_call answers].
  - rewrite (free_head _ _ _ _ E). cbn [bind]. destruct ok; cbn [new_opt new next live bind].
    + destruct (IH (World ((next w, Handle) :: L) (S (next w))) (Some (next w)) L eq_refl) as (w' & m' & E1 & E2).
      rewrite E1. exists w', m'. auto.
    + destruct (IH (World L (next w)) None L eq_refl) as (w' & m' & E1 & E2). rewrite E1. exists w', m'. auto.
  - destruct h as [r|].
    + rewrite in_live by (rewrite E; cbn; auto). cbn [bind]. destruct (IH w (Some r) L E) as (w' & o' & E1 & E2).
      rewrite E1. exists w', o'. auto.
    + cbn [bind]. destruct (IH w None L E) as (w' & o' & E1 & E2). rewrite E1. exists w', o'. auto.
Qed.

Definition rw_live (o : rwobj) (L : list (nat * kind)) : list (nat * kind) :=
  opt Handle (r_wmutex o) ++ opt Handle (r_event o) ++ opt Handle (r_sem o) ++ opt Handle (r_mutex o) ++ L.

Lemma rw_free : forall w o L, live w = rw_live o L -> rw_destroy w o = Ok (World L (next w)).
Proof.
  intros w o L E. unfold rw_destroy, rw_live in *. rewrite (free_head _ _ _ _ E). cbn [bind].
  rewrite (free_head (World _ _) _ _ _ eq_refl). cbn [bind]. rewrite (free_head (World _ _) _ _ _ eq_refl). cbn [bind].
  exact (free_head (World _ _) _ _ _ eq_refl).
Qed.

Lemma rw_make : forall w o L name b0 b1 b2 b3, live w = rw_live o L ->
  exists w' o', rw_create w o name b0 b1 b2 b3 = Ok (w', o', b0 && b1 && b2 && b3) /\ live w' = rw_live o' L /\
    is_some (r_mutex o') = b0 /\ is_some (r_sem o') = b1 /\ is_some (r_event o') = b2 /\ is_some (r_wmutex o') = b3.
Proof.
  intros w o L name b0 b1 b2 b3 E. unfold rw_create. rewrite (rw_free _ _ _ E). cbn [bind].
  destruct name, b0, b1, b2, b3; cbn [new_opt new live next free_opt free]; unfold free; cbn [live next take_out kind_eqb];
    rewrite ?andb_false_r, ?Nat.eqb_refl; cbn [andb]; eexists _, _; repeat split; reflexivity.
Qed.

Lemma use_all_ok : forall w l, (forall r, In (Some r) l -> In (r, Handle) (live w)) -> use_all w l = Ok (forallb is_some l).
Proof.
  induction l as [|[r|] l IH]; intros H; [reflexivity| |reflexivity]. cbn [use_all forallb is_some andb].
  rewrite IH by (intros; apply H; right; assumption). cbn [bind]. destruct (forallb is_some l); [|reflexivity].
  rewrite in_live by (apply H; left; reflexivity). reflexivity.
Qed.

Lemma rw_run : forall ops w o L, live w = rw_live o L ->
  exists w' o', run rw_step w o ops = Ok (w', o', rw_answers (is_some (r_mutex o)) (is_some (r_sem o)) (is_some (r_event o)) (is_some (r_wmutex o)) ops) /\
    live w' = rw_live o' L.
Proof.
  induction ops as [|op ops IH]; intros w o L E; cbn [run rw_answers]; [eauto|].
  assert (I : forall l, (forall r, In (Some r) l -> In (Some r) [r_sem o; r_mutex o; r_event o; r_wmutex o]) -> use_all w l = Ok (forallb is_some l)).
  { intros l H. apply use_all_ok. intros r K. apply H in K. rewrite E. unfold rw_live. rewrite !in_app_iff. cbn in K.
    destruct K as [K|[K|[K|[K|[]]]]]; rewrite K; cbn; auto 10. }
  destruct op as [name b0 b1 b2 b3| | | |]; cbn [rw_step].
  - destruct (rw_make w o L name b0 b1 b2 b3 E) as (w1 & o1 & E1 & E2 & <- & <- & <- & <-). rewrite E1. cbn [bind].
    destruct (IH w1 o1 L E2) as (w' & o' & E3 & E4). rewrite E3. exists w', o'. auto.
  - rewrite I by (cbn; intros; tauto). cbn [bind]. destruct (IH w o L E) as (w' & o' & E3 & E4). rewrite E3. cbn [bind forallb].
    exists w', o'. split; [|exact E4]. do 3 f_equal. cbn. destruct (is_some (r_mutex o)), (is_some (r_sem o)), (is_some (r_event o)), (is_some (r_wmutex o)); reflexivity.
  - rewrite I by (cbn; intros; tauto). cbn [bind]. destruct (IH w o L E) as (w' & o' & E3 & E4). rewrite E3. cbn [bind forallb].
    exists w', o'. split; [|exact E4]. do 3 f_equal. cbn. rewrite andb_true_r. reflexivity.
  - rewrite I by (cbn; intros; tauto). cbn [bind]. destruct (IH w o L E) as (w' & o' & E3 & E4). rewrite E3. cbn [bind forallb].
    exists w', o'. split; [|exact E4]. do 3 f_equal. cbn. destruct (is_some (r_mutex o)), (is_some (r_sem o)), (is_some (r_event o)); reflexivity.
  - rewrite I by (cbn; intros; tauto). cbn [bind]. destruct (IH w o L E) as (w' & o' & E3 & E4). rewrite E3. cbn [bind forallb].
    exists w', o'. split; [|exact E4]. do 3 f_equal. cbn. rewrite andb_true_r. reflexivity.
Qed.

Definition ws_live (o : wsobj) (L : list (nat * kind)) : list (nat * kind) := opt View (ws_view o) ++ opt Handle (ws_file o) ++ L.

Lemma ws_free : forall w o L, live w = ws_live o L -> ws_destroy w o = Ok (World L (next w)).
Proof.
  intros w o L E. unfold ws_destroy, ws_live in *. rewrite (free_head _ _ _ _ E). cbn [bind].
  exact (free_head (World _ _) _ _ _ eq_refl).
Qed.

Lemma ws_run : forall ops w o L, live w = ws_live o L ->
  exists w' o' junk, run ws_step w o ops = Ok (w', o', map ws_said ops) /\ live w' = ws_live o' (junk ++ L) /\
    Forall (fun p => snd p = Heap) junk /\ length junk = length (filter lost_name ops).
Proof.
  induction ops as [|[name made opened mapped] ops IH]; intros w o L E; cbn [run map filter].
  - exists w, o, []. auto.
  - cbn [ws_step ws_said lost_name]. destruct name; cbn [negb andb].
    + rewrite (ws_free _ _ _ E). cbn [bind new live next]. destruct (made || opened) eqn:B; cbn [new_opt new live next].
      * unfold free. cbn [live next take_out kind_eqb]. rewrite andb_false_r, Nat.eqb_refl. cbn [andb bind].
        assert (NL : negb made && negb opened = false) by (destruct made, opened; auto; discriminate). rewrite NL. cbn [andb].
        destruct mapped; cbn [new_opt new live next bind].
        -- destruct (IH (World ((S (S (next w)), View) :: (S (next w), Handle) :: L) (S (S (S (next w))))) (WS (Some (S (S (next w)))) (Some (S (next w)))) L eq_refl)
             as (w' & o' & j & E1 & E2 & E3 & E4). rewrite E1. exists w', o', j. auto.
        -- destruct (IH (World ((S (next w), Handle) :: L) (S (S (next w)))) (WS None (Some (S (next w)))) L eq_refl)
             as (w' & o' & j & E1 & E2 & E3 & E4). rewrite E1. exists w', o', j. auto.
      * assert (NL : negb made && negb opened = true) by (destruct made, opened; auto; discriminate). rewrite NL. cbn [andb bind length].
        destruct (IH (World ((next w, Heap) :: L) (S (next w))) (WS None None) ((next w, Heap) :: L) eq_refl)
             as (w' & o' & j & E1 & E2 & E3 & E4). rewrite E1. exists w', o', (j ++ [(next w, Heap)]).
        split; [reflexivity|]. rewrite <- app_assoc. split; [exact E2|]. split; [apply Forall_app; auto|]. rewrite app_length. cbn. lia.
    + cbn [bind]. destruct (IH w o L E) as (w' & o' & j & E1 & E2 & E3 & E4). rewrite E1. exists w', o', j. auto.
Qed.

(** the mutex: its count agrees with who holds it *)
Definition wm_ok (o : wmobj) (h : option (nat * nat)) : Prop :=
  match h with
  | None => wm_owner o = None /\ wm_cnt o = 0
  | Some (u, d) => wm_owner o = Some u /\ wm_cnt o = d /\ 0 < d /\ wm_h o <> None
  end.

Lemma wm_unlock_ok : forall w o t all h L, live w = opt Handle (wm_h o) ++ L -> wm_ok o h ->
  exists o' b, wm_unlock w o t all = Ok (w, o', b) /\ wm_h o' = wm_h o /\
    wm_ok o' (match h with
              | Some (u, S (S d)) => if u =? t then (if all then None else Some (u, S d)) else h
              | Some (u, _) => if u =? t then None else h
              | None => None end).
Proof.
  intros w o t all h L E O. unfold wm_unlock. destruct (wm_h o) as [r|] eqn:H.
  - destruct h as [[u d]|].
    + destruct O as (O1 & O2 & O3 & O4). rewrite O1. cbn [owned]. destruct (u =? t) eqn:B; cbn [negb].
      * rewrite O2. destruct d as [|[|d]]; [lia| |].
        -- replace ((if all then 1 else 1) - 1) with 0 by (destruct all; reflexivity). cbn [Nat.eqb].
           rewrite in_live by (rewrite E; cbn; auto). eexists _, _. split; [reflexivity|]. split; [reflexivity|]. cbn. auto.
        -- destruct all; cbn [Nat.sub Nat.eqb].
           ++ rewrite in_live by (rewrite E; cbn; auto). eexists _, _. split; [reflexivity|]. split; [reflexivity|]. cbn. auto.
           ++ eexists _, _. split; [reflexivity|]. split; [reflexivity|]. cbn. repeat split; auto; try lia; congruence.
      * exists o, false. split; [reflexivity|]. split; [exact H|]. destruct d as [|[|d]]; cbn; auto.
    + destruct O as (O1 & O2). rewrite O1. cbn [owned negb]. exists o, false. cbn. auto.
  - assert (N : h = None) by (destruct h as [[u d]|]; [destruct O as (_ & _ & _ & O); contradiction|reflexivity]). subst h.
    exists o, false. auto.
Qed.

Lemma wm_run : forall ops w o h L, live w = opt Handle (wm_h o) ++ L -> wm_ok o h ->
  exists w' o' bs h' junk, run wm_step w o ops = Ok (w', o', bs) /\ live w' = opt Handle (wm_h o') ++ junk ++ L /\ wm_ok o' h' /\
    Forall (fun p => snd p = Handle) junk /\ length junk = lost_handles (is_some (wm_h o)) h ops.
Proof.
  assert (FIN : forall ops w1 o1 b (L : list (nat * kind)) n,
    (exists w' o' bs h' junk, run wm_step w1 o1 ops = Ok (w', o', bs) /\ live w' = opt Handle (wm_h o') ++ junk ++ L /\ wm_ok o' h' /\
      Forall (fun p => snd p = Handle) junk /\ length junk = n) ->
    exists w' o' bs h' junk, (let* (w2, s2, bs) := run wm_step w1 o1 ops in Ok (w2, s2, b :: bs)) = Ok (w', o', bs) /\
      live w' = opt Handle (wm_h o') ++ junk ++ L /\ wm_ok o' h' /\ Forall (fun p => snd p = Handle) junk /\ length junk = n).
  { intros ops w1 o1 b L n (w' & o' & bs & h' & j & E1 & E2 & E3 & E4 & E5). rewrite E1. cbn [bind]. exists w', o', (b :: bs), h', j. auto. }
  induction ops as [|op ops IH]; intros w o h L E O; cbn [run].
  - exists w, o, [], h, []. auto.
  - destruct op as [t ok|t got|t all]; cbn [wm_step lost_handles].
    + destruct h as [[u d]|].
      * destruct O as (O1 & O2 & O3 & O4). rewrite O1, O2. replace (0 <? d) with true by (symmetry; apply Nat.ltb_lt; exact O3).
        cbn [owned]. destruct (u =? t).
        -- rewrite (free_head _ _ _ _ E). cbn [bind]. destruct ok; cbn [new_opt new live next bind]; apply FIN.
           ++ apply (IH (World ((next w, Handle) :: L) (S (next w))) (WM (Some (next w)) None 0) None L eq_refl). cbn. auto.
           ++ apply (IH (World L (next w)) (WM None None 0) None L eq_refl). cbn. auto.
        -- cbn [bind]. apply FIN. apply IH; [exact E|]. cbn. auto.
      * destruct O as (O1 & O2). rewrite O1, O2. cbn [Nat.ltb Nat.leb].
        assert (J : Forall (fun p : nat * kind => snd p = Handle) (opt Handle (wm_h o)) /\ length (opt Handle (wm_h o)) = if is_some (wm_h o) then 1 else 0)
          by (destruct (wm_h o); cbn; auto).
        destruct J as [J1 J2].
        destruct ok; cbn [new_opt new live next bind]; apply FIN.
        -- destruct (IH (World ((next w, Handle) :: live w) (S (next w))) (WM (Some (next w)) None 0) None (live w) eq_refl) as (w' & o' & bs & h' & j & E1 & E2 & E3 & E4 & E5); [cbn; auto|].
           exists w', o', bs, h', (j ++ opt Handle (wm_h o)). rewrite <- app_assoc, <- E. split; [exact E1|]. split; [exact E2|]. split; [exact E3|].
           split; [apply Forall_app; auto|]. rewrite app_length, J2, E5. cbn [wm_h is_some]. lia.
        -- destruct (IH w (WM None None 0) None (live w) eq_refl) as (w' & o' & bs & h' & j & E1 & E2 & E3 & E4 & E5); [cbn; auto|].
           exists w', o', bs, h', (j ++ opt Handle (wm_h o)). rewrite <- app_assoc, <- E. split; [exact E1|]. split; [exact E2|]. split; [exact E3|].
           split; [apply Forall_app; auto|]. rewrite app_length, J2, E5. cbn [wm_h is_some]. lia.
    + destruct (wm_h o) as [r|] eqn:H; cbn [is_some].
      * assert (IL : is_live w Handle r = true) by (apply in_live; rewrite E; cbn; auto).
        destruct h as [[u d]|].
        -- destruct O as (O1 & O2 & O3 & O4). rewrite O1, O2. cbn [owned]. destruct (u =? t) eqn:B.
           ++ cbn [bind]. apply FIN. apply (IH w (WM (Some r) (Some u) (S d)) (Some (u, S d)) L E). cbn. repeat split; auto; try lia; congruence.
           ++ rewrite IL. cbn [negb]. destruct got; cbn [bind]; apply FIN.
              ** apply (IH w (WM (Some r) (Some t) 1) (Some (t, 1)) L E). cbn. repeat split; auto; congruence.
              ** rewrite <- H in E. replace true with (is_some (wm_h o)) by (rewrite H; reflexivity).
                 apply (IH w o (Some (u, d)) L E). cbn. auto.
        -- destruct O as (O1 & O2). rewrite O1. cbn [owned]. rewrite IL. cbn [negb]. destruct got; cbn [bind]; apply FIN.
           ++ apply (IH w (WM (Some r) (Some t) 1) (Some (t, 1)) L E). cbn. repeat split; auto; congruence.
           ++ rewrite <- H in E. replace true with (is_some (wm_h o)) by (rewrite H; reflexivity).
              apply (IH w o None L E). cbn. auto.
      * cbn [bind]. apply FIN. rewrite <- H in E. replace false with (is_some (wm_h o)) by (rewrite H; reflexivity). apply (IH w o h L E O).
    + destruct (wm_unlock_ok w o t all h L E O) as (o1 & b & E1 & E2 & E3). rewrite E1. cbn [bind]. apply FIN.
      rewrite <- E2 in E |- *. specialize (IH w o1 _ L E E3).
      destruct h as [[u [|[|d]]]|]; [| | |exact IH]; destruct (u =? t); exact IH.
Qed.

Lemma wm_end : forall w o t h L, live w = opt Handle (wm_h o) ++ L -> wm_ok o h -> wm_destroy w o t = Ok (World L (next w)).
Proof.
  intros w o t h L E O. unfold wm_destroy. destruct (wm_unlock_ok w o t true h L E O) as (o1 & b & -> & E2 & _). cbn [bind].
  rewrite E2. apply free_head, E.
Qed.
