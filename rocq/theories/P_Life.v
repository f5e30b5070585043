(** Proofs about the life of several mutexes on POSIX. *)
From Verif Require Import Base M_Life S_Life.
Open Scope nat_scope.

Definition op_of (e : event) : mop :=
  match e with
  | Make i t name ok => XCreate i t name ok
  | Acquire i t => XLock i t
  | Release i t all => XUnlock i t all
  | Destroy i t => XDestroy i t
  end.

Definition cnt (P : lock -> bool) (l : list lock) : nat := length (filter P l).
Definition b2n (b : bool) : nat := if b then 1 else 0.
Definition on (n : nat) (o : lock) : bool := of_name n o && held o.
Definition own (o : lock) : bool := match place o with Some None => true | _ => false end.

Lemma cnt_change : forall P l i a a', nth_error l i = Some a ->
  cnt P (change l i a') + b2n (P a) = cnt P l + b2n (P a').
Proof.
  unfold cnt. induction l as [|h t IH]; intros [|i] a a' E; cbn in *; try discriminate.
  - injection E as ->. destruct (P a), (P a'); cbn; lia.
  - specialize (IH _ _ a' E). destruct (P h); cbn; lia.
Qed.

Lemma cnt_nth : forall P l i a, nth_error l i = Some a -> P a = true -> 0 < cnt P l.
Proof.
  unfold cnt. induction l as [|h t IH]; intros [|i] a E H; cbn in *; try discriminate.
  - injection E as ->. rewrite H. cbn; lia.
  - specialize (IH _ _ E H). destruct (P h); cbn; lia.
Qed.

Lemma cnt_le : forall (P Q : lock -> bool) l, (forall a, P a = true -> Q a = true) -> cnt P l <= cnt Q l.
Proof.
  unfold cnt. induction l as [|h t IH]; intros H; cbn; [lia|]. specialize (IH H).
  destruct (P h) eqn:E; [rewrite (H _ E); cbn; lia|]. destruct (Q h); cbn; lia.
Qed.

Lemma taken_cnt : forall l a n, place a = Some (Some n) -> taken l a = (0 <? cnt (on n) l).
Proof.
  intros l a n E. unfold taken. rewrite E. unfold cnt. induction l as [|h t IH]; [reflexivity|].
  cbn [existsb filter]. unfold on at 1. destruct (of_name n h && held h) eqn:F; [reflexivity|].
  exact IH.
Qed.

Lemma nth_change : forall l i a j, nth_error l i <> None ->
  nth_error (change l i a) j = if j =? i then Some a else nth_error l j.
Proof.
  induction l as [|h t IH]; intros [|i] a [|j] H; cbn in *; try congruence; try reflexivity.
  apply IH, H.
Qed.

(** what an object knows *)
Definition obj_ok (o : mx) (a : lock) : Prop :=
  m_place o = place a /\
  (match holder a with
   | None => m_owner o = None /\ m_cnt o = 0
   | Some (u, d) => m_owner o = Some u /\ m_cnt o = d /\ 0 < d /\ place a <> None
   end) /\
  (place a = Some None -> m_sem o = if held a then 0 else 1).

(** [strict]: the semaphore of a name is free exactly when nobody holds it; otherwise only: not free
    when somebody holds it *)
Definition names_ok (strict : bool) (s : sys) (l : list lock) : Prop :=
  forall n, cnt (of_name n) l <= s_refs s n /\
    (0 < s_refs s n -> if strict then s_val s n + cnt (on n) l = 1 else s_val s n + cnt (on n) l <= 1).

Definition R (strict : bool) (s : sys) (l : list lock) : Prop :=
  Forall2 obj_ok (s_objs s) l /\ names_ok strict s l.

Definition T (s : sys) (l : list lock) : Prop :=
  (forall n, s_refs s n = cnt (of_name n) l) /\ s_heap s = cnt own l.

Lemma F2_nth : forall os l i, Forall2 obj_ok os l ->
  match nth_error os i, nth_error l i with
  | Some o, Some a => obj_ok o a
  | None, None => True
  | _, _ => False
  end.
Proof.
  intros os l i H. revert i. induction H; intros [|i]; cbn; auto. apply IHForall2.
Qed.

Lemma F2_set : forall os l i o a, Forall2 obj_ok os l -> obj_ok o a -> Forall2 obj_ok (set_obj os i o) (change l i a).
Proof.
  intros os l i o a H K. revert i. induction H; intros [|i]; cbn; constructor; auto.
Qed.

Lemma on_name : forall n a, on n a = true -> of_name n a = true.
Proof. unfold on. intros n a H. apply andb_true_iff in H. tauto. Qed.

Lemma owned_held : forall o a t, obj_ok o a -> owned (m_owner o) t = held_by a t.
Proof.
  intros o a t (_ & H & _). unfold held_by. destruct (holder a) as [[u d]|]; [destruct H as (-> & _)|destruct H as (-> & _)]; reflexivity.
Qed.

Lemma count_held : forall o a, obj_ok o a -> (0 <? m_cnt o) = held a.
Proof.
  intros o a (_ & H & _). unfold held. destruct (holder a) as [[u d]|]; [destruct H as (_ & -> & D & _)|destruct H as (_ & ->)]; [|reflexivity].
  apply Nat.ltb_lt, D.
Qed.

Lemma not_held : forall o a, obj_ok o a -> held a = false -> m_owner o = None /\ m_cnt o = 0 /\ holder a = None.
Proof.
  intros o a (_ & H & _) E. unfold held in E. destruct (holder a) as [[u d]|]; [discriminate|]. tauto.
Qed.

Lemma names_change : forall q s l i a a' s', nth_error l i = Some a -> names_ok q s l ->
  (forall n C K, C <= s_refs s n -> K <= C ->
     b2n (of_name n a) <= C -> b2n (on n a) <= K ->
     (0 < s_refs s n -> if q then s_val s n + K = 1 else s_val s n + K <= 1) ->
     forall c h, c + b2n (of_name n a) = C + b2n (of_name n a') ->
            h + b2n (on n a) = K + b2n (on n a') ->
     c <= s_refs s' n /\ (0 < s_refs s' n -> if q then s_val s' n + h = 1 else s_val s' n + h <= 1)) ->
  names_ok q s' (change l i a').
Proof.
  intros q s l i a a' s' E N H n. destruct (N n) as [N1 N2].
  apply (H n (cnt (of_name n) l) (cnt (on n) l)); [exact N1|apply cnt_le; intros x X; exact (on_name n x X)| | |exact N2|exact (cnt_change _ _ _ _ a' E)|exact (cnt_change _ _ _ _ a' E)].
  - destruct (of_name n a) eqn:O; cbn; [|lia]. exact (cnt_nth _ _ _ _ E O).
  - destruct (on n a) eqn:O; cbn; [|lia]. exact (cnt_nth _ _ _ _ E O).
Qed.

Lemma names_weaken : forall q s l, names_ok q s l -> names_ok false s l.
Proof. intros [] s l H n; destruct (H n) as [A B]; split; auto. intros C. specialize (B C). lia. Qed.

Ltac nm PA HA :=
  let n := fresh "n" in
  intros n ? ? ? ? ? ? ? ? ? ? ?; unfold on, of_name, held, put, b2n in *;
  cbn [place holder s_refs s_val andb blank] in *; rewrite ?PA, ?HA in *; cbn [andb] in *;
  repeat match goal with
  | |- context [if ?a =? ?b then _ else _] => destruct (Nat.eqb_spec a b); subst
  | _ : context [if ?a =? ?b then _ else _] |- _ => destruct (Nat.eqb_spec a b); subst
  | _ : context [(?a =? ?b) && _] |- _ => destruct (Nat.eqb_spec a b); subst; cbn [andb] in *
  end; rewrite ?andb_false_r in *; cbn [andb] in *; try congruence; try match goal with |- context [if ?x then _ = 1 else _ <= 1] => destruct x end; try (split; [lia|intros; lia]); try lia.

Ltac ob := split; [reflexivity|split; [cbn; auto|cbn; intros; congruence]].

Lemma make_ok : forall q s l o i t name ok a, R q s l -> nth_error l i = Some a -> obj_ok o a ->
  (q = true -> orderly l a (Make i t name ok) = true) ->
  let '(s', b) := x_create s o i t name ok in
  R q s' (change l i (after a (Make i t name ok) b)) /\ b = answer l a (Make i t name ok).
Proof.
  intros q s l o i t name ok a [F N] E O D. unfold x_create. rewrite (count_held _ _ O), (owned_held _ _ t O).
  cbn [after answer orderly] in *. unfold held_by_other.
  assert (P : m_place o = place a) by exact (proj1 O).
  destruct (held a) eqn:H; cbn [andb].
  - destruct (held_by a t) eqn:B; cbn [negb andb].
    + assert (P2 : place a = Some None \/ (exists m, place a = Some (Some m)) /\ q = false).
      { destruct O as (_ & O & _). unfold held in H. destruct (holder a) as [[u d]|]; [|discriminate].
        destruct O as (_ & _ & _ & O). destruct (place a) as [[m|]|]; [|auto|congruence].
        right. split; [eauto|]. destruct q; [|reflexivity]. specialize (D eq_refl). discriminate. }
      assert (HA : holder a <> None) by (unfold held in H; destruct (holder a); congruence).
      unfold x_drop. rewrite P. destruct P2 as [P2|[[m P2] Q]]; rewrite P2; cbn [x_init mx_new m_cnt m_owner s_refs s_val s_heap s_objs].
      * destruct name as [n|]; cbn [x_init]; [destruct ok|]; (split; [|reflexivity]); split;
          try (apply F2_set; [exact F|]; ob).
        all: eapply names_change; [exact E|exact N|]; cbn [s_refs s_val].
        -- destruct (s_refs s n =? 0) eqn:Z; [apply Nat.eqb_eq in Z|apply Nat.eqb_neq in Z]; nm P2 H.
        -- nm P2 H.
        -- nm P2 H.
      * subst q. assert (EX : exists hd, holder a = Some hd) by (destruct (holder a); [eauto|congruence]). destruct EX as [hd HD].
        destruct name as [n|]; cbn [x_init s_refs s_val s_heap s_objs]; [destruct ok|]; (split; [|reflexivity]); split;
          try (apply F2_set; [exact F|]; ob).
        all: eapply names_change; [exact E|exact N|]; cbn [s_refs s_val].
        -- destruct (put (s_refs s) m (s_refs s m - 1) n =? 0) eqn:Z; [apply Nat.eqb_eq in Z|apply Nat.eqb_neq in Z]; unfold put in Z; nm P2 HD.
        -- nm P2 HD.
        -- nm P2 HD.
    + split; [|reflexivity]. split; [|].
      * assert (C : change l i a = l). { clear - E. revert i E. induction l; intros [|i] E; cbn in *; try discriminate; [congruence|f_equal; auto]. }
        rewrite C. exact F.
      * assert (C : change l i a = l). { clear - E. revert i E. induction l; intros [|i] E; cbn in *; try discriminate; [congruence|f_equal; auto]. }
        rewrite C. exact N.
  - destruct (not_held _ _ O H) as (W & Z & HA). unfold x_init. rewrite W, Z.
    assert (H2 : held_by a t = false) by (unfold held_by; rewrite HA; reflexivity).
    destruct name as [n|]; cbn [negb]; [destruct ok|]; (split; [|reflexivity]); split;
      try (apply F2_set; [exact F|]; ob).
    all: eapply names_change; [exact E|exact N|]; cbn [s_refs s_val].
    + destruct (s_refs s n =? 0) eqn:Y; [apply Nat.eqb_eq in Y|apply Nat.eqb_neq in Y]; destruct (place a) as [[m|]|] eqn:PA; nm PA HA.
    + destruct (place a) as [[m|]|] eqn:PA; nm PA HA.
    + destruct (place a) as [[m|]|] eqn:PA; nm PA HA.
Qed.

Lemma change_same : forall l i a, nth_error l i = Some a -> change l i a = l.
Proof. induction l; intros [|i] b E; cbn in *; try discriminate; [congruence|f_equal; auto]. Qed.

Lemma lock_ok : forall q s l o i t a, R q s l -> nth_error l i = Some a -> obj_ok o a ->
  match x_lock s o i t with
  | Ok (s', b) => R q s' (change l i (after a (Acquire i t) b)) /\ (q = true -> b = answer l a (Acquire i t))
  | UB => place a = None
  | Fuel => False
  end.
Proof.
  intros q s l o i t a [F N] E O. unfold x_lock. rewrite (owned_held _ _ t O).
  assert (P : m_place o = place a) by exact (proj1 O).
  destruct (held_by a t) eqn:B.
  - cbn [answer after]. rewrite B. split; [|reflexivity].
    unfold held_by in B. destruct O as (_ & O & O3). destruct (holder a) as [[u d]|] eqn:HA; [|discriminate].
    destruct O as (O1 & O2 & O4 & O5). apply Nat.eqb_eq in B. subst u. rewrite Nat.eqb_refl. split.
    + cbn [s_objs]. apply F2_set; [exact F|]. split; [exact P|]. cbn. split; [repeat split; auto; lia|].
      intros Q. rewrite (O3 Q). unfold held. rewrite HA. reflexivity.
    + eapply names_change; [exact E|exact N|]. cbn [s_refs s_val]. destruct (place a) as [[m|]|] eqn:PA; nm PA HA.
  - rewrite P. assert (NH : place a <> None \/ place a = None) by (destruct (place a); [left|right]; congruence).
    assert (HB : held a = false -> holder a = None) by (unfold held; destruct (holder a); congruence).
    destruct (place a) as [[n|]|] eqn:PA; [| |reflexivity]; cbn [answer after]; rewrite B.
    + destruct (s_val s n =? 0) eqn:V; [apply Nat.eqb_eq in V|apply Nat.eqb_neq in V].
      * split; [rewrite (change_same _ _ _ E); split; assumption|]. intros ->. rewrite (taken_cnt _ _ _ PA).
        destruct (N n) as [N1 N2]. cbn in N2.
        assert (1 <= cnt (of_name n) l). { apply (cnt_nth _ _ _ _ E). unfold of_name. rewrite PA. apply Nat.eqb_refl. }
        destruct (Nat.ltb_spec 0 (cnt (on n) l)); [reflexivity|lia].
      * destruct (N n) as [N1 N2].
        assert (1 <= cnt (of_name n) l). { apply (cnt_nth _ _ _ _ E). unfold of_name. rewrite PA. apply Nat.eqb_refl. }
        assert (Z : cnt (on n) l = 0) by (destruct q; lia).
        assert (HA : holder a = None).
        { apply HB. destruct (held a) eqn:HH; [|reflexivity]. exfalso.
          assert (0 < cnt (on n) l); [|lia]. apply (cnt_nth _ _ _ _ E). unfold on, of_name. rewrite PA, HH, Nat.eqb_refl. reflexivity. }
        rewrite HA. split; [|intros _; rewrite (taken_cnt _ _ _ PA), Z; reflexivity]. split.
        -- cbn [s_objs]. apply F2_set; [exact F|]. split; [cbn; congruence|]. split; [cbn; repeat split; auto; congruence|cbn; congruence].
        -- eapply names_change; [exact E|exact N|]. cbn [s_refs s_val]. nm PA HA.
    + pose proof (proj2 (proj2 O) PA) as S. destruct (held a) eqn:HH; rewrite S; cbn [Nat.eqb Nat.sub].
      * split; [rewrite (change_same _ _ _ E); split; assumption|]. intros _. unfold taken. rewrite PA, HH. reflexivity.
      * specialize (HB eq_refl). rewrite HB. split; [|intros _; unfold taken; rewrite PA, HH; reflexivity]. split.
        -- cbn [s_objs]. apply F2_set; [exact F|]. split; [cbn; congruence|]. split; [cbn; repeat split; auto; congruence|reflexivity].
        -- eapply names_change; [exact E|exact N|]. cbn [s_refs s_val]. nm PA HB.
Qed.

(** an object holds, so the semaphore it holds is not free *)
Lemma zero_held : forall q s l o i a n, R q s l -> nth_error l i = Some a -> obj_ok o a -> place a = Some (Some n) -> held a = true ->
  s_val s n = 0 /\ cnt (on n) l = 1 /\ 0 < s_refs s n.
Proof.
  intros q s l o i a n [F N] E O PA H. destruct (N n) as [N1 N2].
  assert (1 <= cnt (of_name n) l). { apply (cnt_nth _ _ _ _ E). unfold of_name. rewrite PA. apply Nat.eqb_refl. }
  assert (0 < cnt (on n) l). { apply (cnt_nth _ _ _ _ E). unfold on, of_name. rewrite PA, H, Nat.eqb_refl. reflexivity. }
  destruct q; lia.
Qed.

Lemma unlock_ok : forall q s l o i t all a, R q s l -> nth_error l i = Some a -> obj_ok o a ->
  exists s', x_unlock s o i t all = Ok (s', answer l a (Release i t all)) /\
    R q s' (change l i (after a (Release i t all) (answer l a (Release i t all)))) /\
    s_refs s' = s_refs s /\ s_heap s' = s_heap s.
Proof.
  intros q s l o i t all a RR E O. pose proof RR as [F N]. unfold x_unlock. rewrite (owned_held _ _ t O). cbn [answer after].
  assert (P : m_place o = place a) by exact (proj1 O).
  destruct (held_by a t) eqn:B; cbn [negb]; [|exists s; rewrite (change_same _ _ _ E); auto].
  unfold held_by in B. pose proof O as (_ & O1 & O3). destruct (holder a) as [[u d]|] eqn:HA; [|discriminate].
  assert (H : held a = true) by (unfold held; rewrite HA; reflexivity).
  destruct O1 as (O1 & O2 & O4 & O5). destruct d as [|d]; [lia|]. rewrite O2.
  destruct (Nat.eqb_spec ((if all then 1 else S d) - 1) 0) as [Z|Z].
  - assert (HH : match d with 0 => None | S d0 => if all then None else Some (u, S d0) end = None :> option (nat * nat)).
    { destruct d; [reflexivity|]. destruct all; [reflexivity|lia]. }
    replace (match S d with 0 => None | S 0 => None | S (S d0) => if all then None else Some (u, S d0) end) with (@None (nat * nat))
      by (symmetry; exact HH).
    rewrite P. destruct (place a) as [[n|]|] eqn:PA; [| |congruence].
    + destruct (zero_held _ _ _ _ _ _ _ RR E O PA H) as (V & K & _). rewrite V. eexists. split; [reflexivity|]. split; [|split; reflexivity]. split.
      * cbn [s_objs]. apply F2_set; [exact F|]. split; [cbn; congruence|]. split; [cbn; auto|cbn; congruence].
      * eapply names_change; [exact E|exact N|]. cbn [s_refs s_val Nat.min]. nm PA HA.
    + rewrite (O3 eq_refl), H. eexists. split; [reflexivity|]. split; [|split; reflexivity]. split.
      * cbn [s_objs]. apply F2_set; [exact F|]. split; [cbn; congruence|]. split; [cbn; auto|reflexivity].
      * eapply names_change; [exact E|exact N|]. cbn [s_refs s_val Nat.min]. nm PA HA.
  - destruct all; [lia|]. destruct d as [|d]; [lia|]. eexists. split; [reflexivity|]. split; [|split; reflexivity]. split.
    + cbn [s_objs]. apply F2_set; [exact F|]. split; [exact P|]. split; [cbn; repeat split; auto; lia|].
      cbn. intros Q. rewrite (O3 Q), H. reflexivity.
    + eapply names_change; [exact E|exact N|]. cbn [s_refs s_val]. destruct (place a) as [[m|]|] eqn:PA; nm PA HA.
Qed.

Lemma change_change : forall l i a b, change (change l i a) i b = change l i b.
Proof. induction l; intros [|i] x y; cbn; auto. f_equal. apply IHl. Qed.

Lemma set_set : forall l i a b, set_obj (set_obj l i a) i b = set_obj l i b.
Proof. induction l; intros [|i] x y; cbn; auto. f_equal. apply IHl. Qed.

Lemma released : forall l a i t, held (after a (Release i t true) (answer l a (Release i t true))) = held_by_other a t /\
  place (after a (Release i t true) (answer l a (Release i t true))) = place a.
Proof.
  intros l a i t. cbn [answer after]. unfold held_by_other. destruct (held_by a t) eqn:B; cbn [negb].
  - rewrite andb_false_r. split; [|reflexivity]. unfold held. cbn. destruct (holder a) as [[u [|[|d]]]|]; reflexivity.
  - rewrite andb_true_r. split; reflexivity.
Qed.

Lemma destroy_ok : forall q s l o i t a, R q s l -> nth_error l i = Some a -> obj_ok o a ->
  (q = true -> orderly l a (Destroy i t) = true) ->
  exists s', x_destroy s o i t = Ok (s', true) /\ R q s' (change l i blank) /\
    s_refs s' = (match place a with Some (Some n) => put (s_refs s) n (s_refs s n - 1) | _ => s_refs s end) /\
    s_heap s' = (match place a with Some None => s_heap s - 1 | _ => s_heap s end).
Proof.
  intros q s l o i t a RR E O D. unfold x_destroy.
  destruct (unlock_ok q s l o i t true a RR E O) as (s1 & E1 & [F N] & Rf & Hp). rewrite E1. cbn [bind].
  set (a1 := after a (Release i t true) (answer l a (Release i t true))) in *.
  destruct (released l a i t) as [HH PP]. fold a1 in HH, PP. clearbody a1. clear E1.
  assert (E1 : nth_error (change l i a1) i = Some a1) by (rewrite nth_change, Nat.eqb_refl; congruence).
  assert (P : m_place o = place a) by exact (proj1 O).
  eexists. split; [reflexivity|]. rewrite <- (change_change l i a1 blank).
  assert (Q : q = true -> forall n, place a = Some (Some n) -> held a1 = false).
  { intros -> n PA. specialize (D eq_refl). cbn [orderly] in D. rewrite PA in D. rewrite HH. cbn [andb] in D.
    destruct (held_by_other a t); [discriminate|reflexivity]. }
  unfold x_drop. rewrite P. rewrite <- PP in *. destruct (place a1) as [[n|]|] eqn:PA; cbn [s_refs s_val s_heap s_objs]; (split; [split|]).
  1,4,7: apply F2_set; [exact F|]; ob.
  2,4,6: rewrite Rf, Hp; split; reflexivity.
  all: eapply names_change; [exact E1|exact N|]; cbn [s_refs s_val].
  - destruct (holder a1) as [hd|] eqn:HA.
    + assert (q = false) as -> by (destruct q; [specialize (Q eq_refl n eq_refl); unfold held in Q; rewrite HA in Q; discriminate|reflexivity]).
      nm PA HA.
    + nm PA HA.
  - nm PA HH.
  - nm PA HH.
Qed.

(** ** Every call *)

Lemma step_ok : forall q s l e a, R q s l -> nth_error l (target e) = Some a ->
  (q = true -> orderly l a e = true) ->
  match x_step s (op_of e) with
  | Ok (s', b) => R q s' (change l (target e) (after a e b)) /\ (q = true -> b = answer l a e)
  | UB => orderly l a e = false
  | Fuel => False
  end.
Proof.
  intros q s l e a RR E D. pose proof (F2_nth _ _ (target e) (proj1 RR)) as O. rewrite E in O.
  unfold x_step. destruct e as [i t name ok|i t|i t all|i t]; cbn [op_of target] in *;
    (destruct (nth_error (s_objs s) i) as [o|]; [|contradiction]).
  - pose proof (make_ok q s l o i t name ok a RR E O D) as M. destruct (x_create s o i t name ok) as [s' b].
    destruct M as [M1 M2]. split; [exact M1|intros _; exact M2].
  - pose proof (lock_ok q s l o i t a RR E O) as M. destruct (x_lock s o i t) as [[s' b]| |]; [exact M| |contradiction].
    cbn [orderly]. rewrite M. reflexivity.
  - destruct (unlock_ok q s l o i t all a RR E O) as (s' & -> & M & _). split; [exact M|reflexivity].
  - destruct (destroy_ok q s l o i t a RR E O D) as (s' & -> & M & _). split; [exact M|reflexivity].
Qed.

Lemma step_none : forall q s l e, R q s l -> nth_error l (target e) = None -> x_step s (op_of e) = Ok (s, false).
Proof.
  intros q s l e RR E. pose proof (F2_nth _ _ (target e) (proj1 RR)) as O. rewrite E in O.
  unfold x_step. destruct e; cbn [op_of target] in *; (destruct (nth_error (s_objs s) _) as [o|]; [contradiction|reflexivity]).
Qed.

Lemma run_any : forall es s l s' bs, R false s l -> x_run s (map op_of es) = Ok (s', bs) -> R false s' (watch l es bs).
Proof.
  induction es as [|e es IH]; intros s l s' bs RR H; cbn [map x_run] in H.
  - injection H as <- <-. exact RR.
  - destruct (nth_error l (target e)) as [a|] eqn:E.
    + pose proof (step_ok false s l e a RR E ltac:(discriminate)) as S.
      destruct (x_step s (op_of e)) as [[s1 b]| |]; cbn [bind] in H; try discriminate.
      destruct (x_run s1 (map op_of es)) as [[s2 bs2]| |] eqn:X; cbn [bind] in H; try discriminate.
      injection H as <- <-. cbn [watch]. rewrite E. apply (IH s1); [exact (proj1 S)|exact X].
    + rewrite (step_none false s l e RR E) in H. cbn [bind] in H.
      destruct (x_run s (map op_of es)) as [[s2 bs2]| |] eqn:X; cbn [bind] in H; try discriminate.
      injection H as <- <-. cbn [watch]. rewrite E. apply (IH s); assumption.
Qed.

Lemma run_orderly : forall es s l, R true s l -> proper orderly l es ->
  exists s', x_run s (map op_of es) = Ok (s', expected l es) /\ R true s' (watch l es (expected l es)).
Proof.
  induction es as [|e es IH]; intros s l RR H; cbn [map x_run proper expected watch] in *; [eauto|].
  destruct (nth_error l (target e)) as [a|] eqn:E.
  - destruct H as [D H]. pose proof (step_ok true s l e a RR E (fun _ => D)) as S.
    destruct (x_step s (op_of e)) as [[s1 b]| |]; [|congruence|contradiction]. destruct S as [S1 S2]. specialize (S2 eq_refl). subst b.
    destruct (IH s1 _ S1 H) as (s' & E1 & R1). exists s'. cbn [bind]. rewrite E1. auto.
  - rewrite (step_none true s l e RR E). cbn [bind]. destruct (IH s l RR H) as (s' & E1 & R1). exists s'. rewrite E1. auto.
Qed.

Lemma start_ok : forall q k, R q (x_start k) (repeat blank k).
Proof.
  intros q k. split.
  - cbn. induction k; cbn; constructor; [|exact IHk]. split; [reflexivity|split; [cbn; auto|cbn; congruence]].
  - intros n. cbn. assert (cnt (of_name n) (repeat blank k) = 0) by (induction k; auto). split; [lia|lia].
Qed.

(** ** References and blocks *)

Lemma T_change : forall s l i a a' s', nth_error l i = Some a -> T s l ->
  (forall n c, b2n (of_name n a) <= s_refs s n -> c + b2n (of_name n a) = s_refs s n + b2n (of_name n a') -> s_refs s' n = c) ->
  (forall c, b2n (own a) <= s_heap s -> c + b2n (own a) = s_heap s + b2n (own a') -> s_heap s' = c) ->
  T s' (change l i a').
Proof.
  intros s l i a a' s' E [T1 T2] H1 H2. split; [intros n; apply H1|apply H2]; rewrite ?T1, ?T2; try exact (cnt_change _ _ _ _ a' E).
  - destruct (of_name n a) eqn:O; cbn; [|lia]. exact (cnt_nth _ _ _ _ E O).
  - destruct (own a) eqn:O; cbn; [|lia]. exact (cnt_nth _ _ _ _ E O).
Qed.

Ltac tm PA :=
  unfold own, of_name, b2n, put in *; cbn [place blank s_refs s_heap] in *; rewrite ?PA in *;
  intros;
  repeat match goal with
  | |- context [if ?a =? ?b then _ else _] => destruct (Nat.eqb_spec a b); subst
  | _ : context [if ?a =? ?b then _ else _] |- _ => destruct (Nat.eqb_spec a b); subst
  end; try congruence; try lia.

Lemma step_thrifty : forall s l e a s' b, R false s l -> T s l -> nth_error l (target e) = Some a -> thrifty l a e = true ->
  x_step s (op_of e) = Ok (s', b) -> T s' (change l (target e) (after a e b)).
Proof.
  intros s l e a s' b RR TT E D H. pose proof (F2_nth _ _ (target e) (proj1 RR)) as O. rewrite E in O.
  assert (KEEP : forall a', place a' = place a -> s_refs s' = s_refs s -> s_heap s' = s_heap s -> T s' (change l (target e) a')).
  { intros a' P Q1 Q2. apply (T_change s l (target e) a a' s' E TT); rewrite ?Q1, ?Q2.
    - intros n c. unfold of_name. rewrite P. lia.
    - intros c. unfold own. rewrite P. lia. }
  unfold x_step in H. destruct e as [i t name ok|i t|i t all|i t]; cbn [op_of target] in *;
    (destruct (nth_error (s_objs s) i) as [o|]; [|contradiction]).
  - injection H as H. unfold x_create in H. rewrite (count_held _ _ O), (owned_held _ _ t O) in H.
    cbn [after thrifty] in *. unfold held_by_other. assert (P : m_place o = place a) by exact (proj1 O).
    destruct (held a) eqn:HA; cbn [andb].
    + destruct (held_by a t) eqn:B; cbn [negb].
      * unfold x_drop in H. rewrite P in H.
        destruct (place a) as [[m|]|] eqn:PA;
          (destruct name as [n|]; cbn [x_init s_refs s_val s_heap s_objs] in H; [destruct ok|]; injection H as <- <-;
           (apply (T_change s l i a _ _ E TT); tm PA)).
      * injection H as <- <-. apply KEEP; reflexivity.
    + assert (PA : place a = None) by (destruct (place a); [discriminate|reflexivity]).
      destruct name as [n|]; cbn [x_init s_refs s_val s_heap s_objs] in H; [destruct ok|]; injection H as <- <-;
           (apply (T_change s l i a _ _ E TT); tm PA).
  - cbn [after]. assert (P2 : s_refs s' = s_refs s /\ s_heap s' = s_heap s).
    { unfold x_lock in H. destruct (owned (m_owner o) t); [injection H as <- _; auto|]. destruct (m_place o) as [[n|]|]; [| |discriminate].
      - destruct (s_val s n =? 0); injection H as <- _; auto.
      - destruct (m_sem o =? 0); injection H as <- _; auto. }
    apply KEEP; [destruct b; reflexivity|apply P2|apply P2].
  - destruct (unlock_ok false s l o i t all a RR E O) as (s1 & E1 & _ & Rf & Hp). rewrite E1 in H. injection H as <- <-.
    apply KEEP; [|exact Rf|exact Hp]. cbn [after answer]. destruct (held_by a t); reflexivity.
  - destruct (destroy_ok false s l o i t a RR E O ltac:(discriminate)) as (s1 & E1 & _ & Rf & Hp). rewrite E1 in H. injection H as <- <-.
    cbn [after]. apply (T_change s l i a _ _ E TT); rewrite ?Rf, ?Hp; destruct (place a) as [[m|]|] eqn:PA; tm PA.
Qed.

Lemma run_thrifty : forall es s l s' bs, R false s l -> T s l -> x_run s (map op_of es) = Ok (s', bs) ->
  proper_seen thrifty l es bs -> T s' (watch l es bs).
Proof.
  induction es as [|e es IH]; intros s l s' bs RR TT H D; cbn [map x_run] in H.
  - injection H as <- <-. exact TT.
  - destruct (nth_error l (target e)) as [a|] eqn:E.
    + pose proof (step_ok false s l e a RR E ltac:(discriminate)) as S. pose proof (fun s' b => step_thrifty s l e a s' b RR TT E) as S2.
      destruct (x_step s (op_of e)) as [[s1 b]| |]; cbn [bind] in H; try discriminate.
      destruct (x_run s1 (map op_of es)) as [[s2 bs2]| |] eqn:X; cbn [bind] in H; try discriminate.
      injection H as <- <-. cbn [watch proper_seen] in *. rewrite E in D |- *. destruct D as [D1 D2].
      apply (IH s1); [exact (proj1 S)|exact (S2 _ _ D1 eq_refl)|exact X|exact D2].
    + rewrite (step_none false s l e RR E) in H. cbn [bind] in H.
      destruct (x_run s (map op_of es)) as [[s2 bs2]| |] eqn:X; cbn [bind] in H; try discriminate.
      injection H as <- <-. cbn [watch proper_seen] in *. rewrite E in D |- *. apply (IH s); assumption.
Qed.

Lemma start_T : forall k, T (x_start k) (repeat blank k).
Proof. intros k. split; [intros n|]; cbn; induction k; auto. Qed.
