(** The cache stores what its history says. *)
From Verif Require Import Base S_Seq P_Dll S_Vec M_Vec P_Vec S_Cache M_Cache.

Section Cache.
Context {K V : Type}.
Variable eqK : K -> K -> bool.
Variable eqK_ok : forall a b, eqK a b = true <-> a = b.
Variables (k0 : K) (v0 : V).

(** The occupant of slot [i] after a history. *)
Fixpoint slot (n : nat) (hist : list (event K V)) (i : nat) : option (K * V) :=
  match hist with
  | [] => None
  | EInsert h k v :: t => if h mod n =? i then Some (k, v) else slot n t i
  | ERemove h k :: t => match slot n t i with
      | Some (k', v) => if (h mod n =? i) && eqK k' k then None else Some (k', v)
      | None => None end
  | EEmpty :: _ => None
  end.

Lemma slot_stored n hist h k v : slot n hist (h mod n) = Some (k, v) <-> stored n hist h k v.
Proof.
  induction hist as [|e hist IH]; cbn [slot].
  - split; [discriminate|]. intros (a & h' & b & E & _). now destruct a.
  - assert (KEEP : spares n h k e -> (stored n hist h k v <-> stored n (e :: hist) h k v)).
    { intros S. split; intros (a & h' & b & E & M & F).
      - exists (e :: a), h', b. rewrite E. split; auto. 
      - destruct a as [|e' a]; cbn in E; inversion E; subst.
        + cbn in S. contradiction.
        + exists a, h', b. split; auto. split; auto. now apply Forall_inv_tail in F. }
    assert (DROP : ~ spares n h k e -> (forall h', e <> EInsert h' k v) -> ~ stored n (e :: hist) h k v).
    { intros S D (a & h' & b & E & M & F). destruct a as [|e' a]; cbn in E; inversion E; subst.
      - now apply (D h'). - now apply Forall_inv in F. }
    destruct e as [h' k' v'|h' k'|].
    + destruct (Nat.eqb_spec (h' mod n) (h mod n)) as [E|E].
      * split.
        -- intros Q; inversion Q; subst. exists [], h', hist. split; auto.
        -- intros (a & h2 & b & Q & M & F). destruct a as [|e' a]; cbn in Q; inversion Q; subst; auto.
           apply Forall_inv in F. cbn in F. contradiction.
      * rewrite IH. apply KEEP. exact E.
    + destruct (slot n hist (h mod n)) as [[k1 v1]|] eqn:S.
      * destruct ((h' mod n =? h mod n) && eqK k1 k') eqn:B.
        -- apply andb_true_iff in B as [B1 B2]. apply Nat.eqb_eq in B1. apply eqK_ok in B2. subst k'. split; [discriminate|].
           intros ST. destruct (eqK k1 k) eqn:Ek.
           ++ apply eqK_ok in Ek. subst k1. exfalso. revert ST. apply DROP; [cbn; tauto|discriminate].
           ++ assert (spares (V:=V) n h k (ERemove h' k1)) as SP. { cbn. intros [_ ->]. rewrite (proj2 (eqK_ok k k)) in Ek; congruence. }
              apply (KEEP SP) in ST. apply IH in ST. inversion ST; subst. rewrite (proj2 (eqK_ok k k)) in Ek; congruence.
        -- split.
           ++ intros Q; inversion Q; subst. apply KEEP; [|now apply IH]. intros [Q1 Q2]. subst k'. rewrite Q1 in B.
              rewrite Nat.eqb_refl in B. rewrite (proj2 (eqK_ok k k)) in B; [discriminate|auto].
           ++ intros ST. destruct ST as (a & h2 & b & Q & M & F). destruct a as [|e' a]; cbn in Q; inversion Q; subst.
              apply IH. exists a, h2, b. split; auto. split; auto. now apply Forall_inv_tail in F.
      * split; [discriminate|]. intros ST. destruct ST as (a & h2 & b & Q & M & F). destruct a as [|e' a]; cbn in Q; inversion Q; subst.
        apply IH. exists a, h2, b. split; auto. split; auto. now apply Forall_inv_tail in F.
    + split; [discriminate|]. intros ST. exfalso. revert ST. apply DROP; [cbn; tauto|discriminate].
Qed.

Definition node_is (a : node K V) (o : option (K * V)) : Prop :=
  if used a then o = Some (nkey a, nval a) else o = None.

(** Nodes of one cache. *)
Definition nodes_ok (l : list (node K V)) (c : nat * list (event K V)) : Prop :=
  length l = fst c /\ forall i a, nth_error l i = Some a -> node_is a (slot (fst c) (snd c) i).

Definition CR (w : world (node K V)) (c : caches K V) : Prop :=
  exists s, R w s /\ forall x, match s x, c x with
    | Some l, Some q => nodes_ok l q
    | None, None => True
    | _, _ => False end.

Lemma CR_init : CR winit cempty.
Proof. exists (vempty (node K V)). split; [apply init_R|]. intros x. exact I. Qed.

Lemma CR_get w c x q : CR w c -> c x = Some q -> exists s l, R w s /\ s x = Some l /\ nodes_ok l q /\
  (forall y, match s y, c y with Some l, Some q => nodes_ok l q | None, None => True | _, _ => False end).
Proof.
  intros (s & H & A) E. pose proof (A x) as Ax. rewrite E in Ax. destruct (s x) as [l|] eqn:Sx; [|contradiction]. eauto 8.
Qed.
Lemma CR_put w' s x l' (c : caches K V) q' :
  (forall y, match s y, c y with Some l, Some q => nodes_ok l q | None, None => True | _, _ => False end) ->
  R w' (fupd s x l') -> match l', q' with Some l, Some q => nodes_ok l q | None, None => True | _, _ => False end ->
  CR w' (fupd c x q').
Proof.
  intros A H N. exists (fupd s x l'). split; auto. intros y. destruct (Nat.eq_dec y x) as [->|Y].
  - rewrite !fupd_same. exact N. - rewrite !fupd_other by auto. apply A.
Qed.

Lemma node_sim x i f (w : world (node K V)) s l a : R w s -> s x = Some l -> nth_error l i = Some a ->
  exists w', m_node x i f w = Ok w' /\ R w' (fupd s x (Some (upd l i (f a)))).
Proof.
  intros H Hx Ha. assert (i < length l) by (apply nth_error_Some; congruence).
  unfold m_node. rewrite (read_ok x i w s l H Hx) by auto. unfold rd. rewrite Ha. cbn [bind]. now apply write_sim.
Qed.

Lemma slot_i x h (w : world (node K V)) s l n : R w s -> s x = Some l -> length l = n -> n <> 0 ->
  m_slot x h w = Ok (h mod n) /\ h mod n < length l.
Proof.
  intros H Hx L N. unfold m_slot. rewrite (size_ok x w s l H Hx). cbn [bind]. rewrite L.
  apply Nat.eqb_neq in N as N'. rewrite N'. split; auto. now apply Nat.mod_upper_bound.
Qed.

Lemma fupd2 {A} (s : nat -> A) x u v y : fupd (fupd s x u) x v y = fupd s x v y.
Proof. destruct (Nat.eq_dec y x) as [->|Y]; [now rewrite !fupd_same|now rewrite !fupd_other]. Qed.

Lemma upd2 {A} (l : list A) i u v : upd (upd l i u) i v = upd l i v.
Proof. revert i; induction l as [|a l IH]; intros [|i]; cbn; auto. now rewrite IH. Qed.

Lemma insert_sim x h k v w (c : caches K V) n hist : CR w c -> c x = Some (n, hist) -> n <> 0 ->
  exists w', m_insert x h k v w = Ok w' /\ CR w' (fupd c x (Some (n, EInsert h k v :: hist))).
Proof.
  intros HC Hx N. destruct (CR_get w c x _ HC Hx) as (s & l & H & Sx & [L NO] & A). cbn [fst snd] in *.
  destruct (slot_i x h w s l n H Sx L N) as [E Li]. unfold m_insert. rewrite E. cbn [bind].
  set (i := h mod n) in *.
  destruct (nth_error l i) as [a|] eqn:Ea; [|apply nth_error_None in Ea; lia].
  destruct (node_sim x i (fun a => Node true (nkey a) (nval a)) w s l a H Sx Ea) as (w1 & -> & H1). cbn [bind].
  destruct (node_sim x i (fun a => Node (used a) k (nval a)) w1 _ _ (Node true (nkey a) (nval a)) H1 (fupd_same _ _ _)) as (w2 & -> & H2).
  { apply upd_nth_same; auto. }
  cbn [bind].
  destruct (node_sim x i (fun a => Node (used a) (nkey a) v) w2 _ _ (Node true k (nval a)) H2 (fupd_same _ _ _)) as (w3 & -> & H3).
  { apply upd_nth_same. rewrite upd_length. auto. }
  eexists. split; [reflexivity|]. rewrite !upd2 in H3. cbn [used nkey nval] in H3.
  eapply CR_put; [exact A| |].
  - eapply R_ext; [|exact H3]. intros y. rewrite fupd2. apply fupd2.
  - split; cbn [fst snd]; [now rewrite upd_length|]. intros j b Hj. cbn [slot].
    destruct (Nat.eqb_spec (h mod n) j) as [<-|D].
    + rewrite upd_nth_same in Hj by auto. inversion Hj. reflexivity.
    + rewrite upd_nth_other in Hj by auto. now apply NO.
Qed.

Lemma view x h k w (c : caches K V) n hist : CR w c -> c x = Some (n, hist) -> n <> 0 ->
  exists a, m_slot x h w = Ok (h mod n) /\ m_read x (h mod n) w = Ok a /\ node_is a (slot n hist (h mod n)) /\
    (used a && eqK (nkey a) k = true <-> exists v, slot n hist (h mod n) = Some (k, v) /\ v = nval a).
Proof.
  intros HC Hx N. destruct (CR_get w c x _ HC Hx) as (s & l & H & Sx & [L NO] & A). cbn [fst snd] in *.
  destruct (slot_i x h w s l n H Sx L N) as [E Li].
  destruct (nth_error l (h mod n)) as [a|] eqn:Ea; [|apply nth_error_None in Ea; lia].
  exists a. split; auto. split; [rewrite (read_ok x _ w s l H Sx) by auto; unfold rd; now rewrite Ea|].
  specialize (NO _ _ Ea). split; auto. unfold node_is in NO. destruct (used a); cbn [andb].
  - rewrite eqK_ok, NO. split.
    + intros ->. eauto. + intros (v & Q & _). now inversion Q.
  - rewrite NO. split; [discriminate|]. now intros (v & Q & _).
Qed.

Lemma remove_sim x h k w (c : caches K V) n hist : CR w c -> c x = Some (n, hist) -> n <> 0 ->
  exists b w', m_remove eqK x h k w = Ok (b, w') /\ CR w' (fupd c x (Some (n, ERemove h k :: hist))) /\
    (b = true <-> exists v, stored n hist h k v).
Proof.
  intros HC Hx N. destruct (view x h k w c n hist HC Hx N) as (a & E1 & E2 & NI & B).
  unfold m_remove. rewrite E1. cbn [bind]. rewrite E2. cbn [bind].
  destruct (CR_get w c x _ HC Hx) as (s & l & H & Sx & [L NO] & A). cbn [fst snd] in *.
  destruct (slot_i x h w s l n H Sx L N) as [_ Li].
  assert (Ea : nth_error l (h mod n) = Some a).
  { rewrite (read_ok x _ w s l H Sx) in E2 by auto. unfold rd in E2. destruct (nth_error l (h mod n)); now inversion E2. }
  assert (ST : used a && eqK (nkey a) k = true <-> exists v, stored n hist h k v).
  { rewrite B. split.
    - intros (v & Q & _). exists v. now apply slot_stored.
    - intros (v & Q). apply slot_stored in Q. exists v. split; auto. unfold node_is in NI. destruct (used a); congruence. }
  destruct (used a && eqK (nkey a) k) eqn:U.
  - apply andb_true_iff in U as [U1 U2]. apply eqK_ok in U2.
    destruct (node_sim x _ (fun a => Node false (nkey a) (nval a)) w s l a H Sx Ea) as (w1 & -> & H1). cbn [bind].
    eexists _, _. split; [reflexivity|]. split; auto. eapply CR_put; [exact A|exact H1|].
    split; cbn [fst snd]; [now rewrite upd_length|]. intros j b Hj. cbn [slot].
    destruct (Nat.eq_dec j (h mod n)) as [->|D].
    + rewrite upd_nth_same in Hj by auto. inversion Hj. unfold node_is in *. rewrite U1 in NI. rewrite NI, Nat.eqb_refl. cbn.
      now rewrite (proj2 (eqK_ok _ _) U2).
    + rewrite upd_nth_other in Hj by auto. specialize (NO _ _ Hj). destruct (slot n hist j) as [[k' v']|]; auto.
      destruct (Nat.eqb_spec (h mod n) j) as [F|_]; [congruence|]. exact NO.
  - eexists _, _. split; [reflexivity|]. split; auto. eapply CR_put; [exact A| |].
    { eapply R_ext; [|exact H]. intros y. instantiate (1 := Some l). destruct (Nat.eq_dec y x) as [->|Y]; [now rewrite fupd_same|now rewrite fupd_other]. }
    split; cbn [fst snd]; auto. intros j b Hj. cbn [slot]. specialize (NO _ _ Hj).
    destruct (slot n hist j) as [[k' v']|] eqn:S; auto.
    destruct ((h mod n =? j) && eqK k' k) eqn:F; auto. apply andb_true_iff in F as [F1 F2]. apply Nat.eqb_eq in F1. subst j.
    rewrite Ea in Hj. inversion Hj; subst b. unfold node_is in NO. destruct (used a); [|discriminate]. inversion NO; subst.
    cbn in U. congruence.
Qed.

Lemma empty_loop_ok n : forall x i (w : world (node K V)) s l, R w s -> s x = Some l -> length l = i + n ->
  exists w' l', empty_loop n x i w = Ok w' /\ R w' (fupd s x (Some l')) /\ length l' = length l /\
    (forall j, j < i -> nth_error l' j = nth_error l j) /\ (forall j a, i <= j -> nth_error l' j = Some a -> used a = false).
Proof.
  induction n as [|n IH]; intros x i w s l H Hx L; cbn [empty_loop].
  - exists w, l. split; auto. split.
    { eapply R_ext; [|exact H]. intros y. destruct (Nat.eq_dec y x) as [->|Y]; [now rewrite fupd_same|now rewrite fupd_other]. }
    repeat split; auto. intros j a J E. assert (j < length l) by (apply nth_error_Some; congruence). lia.
  - destruct (nth_error l i) as [a|] eqn:Ea; [|apply nth_error_None in Ea; lia].
    destruct (node_sim x i (fun a => Node false (nkey a) (nval a)) w s l a H Hx Ea) as (w1 & -> & H1). cbn [bind].
    destruct (IH x (S i) w1 _ _ H1 (fupd_same _ _ _)) as (w2 & l2 & E & H2 & L2 & P & Q); [rewrite upd_length; lia|].
    exists w2, l2. rewrite upd_length in L2. split; auto. split; [|split; [auto|split]].
    + eapply R_ext; [|exact H2]. intros y. apply fupd2.
    + intros j J. rewrite P by lia. apply upd_nth_other. lia.
    + intros j b J Hj. destruct (Nat.eq_dec j i) as [->|D]; [|apply (Q j); auto; lia].
      rewrite P in Hj by lia. rewrite upd_nth_same in Hj by lia. now inversion Hj.
Qed.

Lemma empty_sim x w (c : caches K V) n hist : CR w c -> c x = Some (n, hist) ->
  exists w', m_empty x w = Ok w' /\ CR w' (fupd c x (Some (n, EEmpty :: hist))).
Proof.
  intros HC Hx. destruct (CR_get w c x _ HC Hx) as (s & l & H & Sx & [L NO] & A). cbn [fst snd] in *.
  unfold m_empty. rewrite (size_ok x w s l H Sx). cbn [bind].
  destruct (empty_loop_ok (length l) x 0 w s l H Sx) as (w' & l' & E & H' & L' & _ & Q); auto. exists w'. split; auto.
  eapply CR_put; [exact A|exact H'|]. split; cbn [fst snd]; [lia|]. intros i a Ha. unfold node_is.
  rewrite (Q i a) by (auto; lia). reflexivity.
Qed.

Lemma csim_step o w c c' : CR w c -> cstep o c = Some c' -> exists w', mcstep eqK k0 v0 o w = Ok w' /\ CR w' c'.
Proof.
  intros HC. destruct o as [x n|x y|x y|x|x h k v|x h k|x]; cbn [cstep mcstep].
  - destruct (c x) eqn:E; [discriminate|]. intros Q; inversion Q; subst. destruct HC as (s & H & A).
    pose proof (A x) as Ax. rewrite E in Ax. destruct (s x) eqn:Sx; [contradiction|].
    destruct (new_sim (fresh k0 v0) x n w s H Sx) as (w' & Ew & H'). exists w'. split; auto. eapply CR_put; [exact A|exact H'|].
    split; cbn [fst snd slot]; [apply repeat_length|]. intros i a Ha. apply nth_error_In, repeat_spec in Ha. now subst.
  - destruct (c x) eqn:E; [discriminate|]. destruct (c y) as [q|] eqn:F; [|discriminate]. intros Q; inversion Q; subst.
    destruct (CR_get w c y _ HC F) as (s & l & H & Sy & NO & A). pose proof (A x) as Ax. rewrite E in Ax.
    destruct (s x) eqn:Sx; [contradiction|]. destruct (copy_sim (fresh k0 v0) x y w s l H Sx Sy) as (w' & Ew & H').
    exists w'. split; auto. eapply CR_put; [exact A|exact H'|exact NO].
  - destruct (c x) eqn:E; [|discriminate]. destruct (c y) as [q|] eqn:F; [|discriminate]. intros Q; inversion Q; subst.
    destruct (CR_get w c y _ HC F) as (s & l & H & Sy & NO & A). pose proof (A x) as Ax. rewrite E in Ax.
    destruct (s x) eqn:Sx; [|contradiction]. destruct (assign_sim (fresh k0 v0) false x y w s _ l H Sx Sy) as (w' & Ew & H').
    exists w'. split; auto. eapply CR_put; [exact A|exact H'|exact NO].
  - destruct (c x) as [q|] eqn:E; [|discriminate]. intros Q; inversion Q; subst.
    destruct (CR_get w c x _ HC E) as (s & l & H & Sx & NO & A). destruct (delete_sim x w s l H Sx) as (w' & Ew & H').
    exists w'. split; auto. eapply CR_put; [exact A|exact H'|exact I].
  - unfold note. destruct (c x) as [[n hist]|] eqn:E; [|discriminate]. destruct (Nat.eqb_spec n 0); [discriminate|]. cbn [andb].
    intros Q; inversion Q; subst. now apply insert_sim.
  - unfold note. destruct (c x) as [[n hist]|] eqn:E; [|discriminate]. destruct (Nat.eqb_spec n 0); [discriminate|]. cbn [andb].
    intros Q; inversion Q; subst. destruct (remove_sim x h k w c n hist HC E) as (b & w' & -> & H' & _); auto. cbn [bind]. eauto.
  - unfold note. destruct (c x) as [[n hist]|] eqn:E; [|discriminate]. cbn [andb].
    intros Q; inversion Q; subst. now apply empty_sim.
Qed.
Lemma csim_run p : forall w c c', CR w c -> crun p c = Some c' -> exists w', mcrun eqK k0 v0 p w = Ok w' /\ CR w' c'.
Proof.
  induction p as [|o p IH]; intros w c c' H E; cbn [crun mcrun] in *; [inversion E; subst; eauto|].
  destruct (cstep o c) as [c1|] eqn:V1; [|discriminate]. destruct (csim_step o w c c1 H V1) as (w1 & -> & H1). cbn [bind]. eauto.
Qed.

Lemma find_ok x h k r w (c : caches K V) n hist : CR w c -> c x = Some (n, hist) -> n <> 0 ->
  exists b v, m_find eqK x h k r w = Ok (b, v) /\ m_exists eqK x h k w = Ok b /\
    (b = true -> stored n hist h k v) /\ (b = false -> v = r /\ forall u, ~ stored n hist h k u).
Proof.
  intros HC Hx N. destruct (view x h k w c n hist HC Hx N) as (a & E1 & E2 & NI & B).
  unfold m_find, m_exists. rewrite E1. cbn [bind]. rewrite E2. cbn [bind].
  destruct (used a && eqK (nkey a) k) eqn:U.
  - exists true, (nval a). repeat split; auto; try discriminate. intros _. destruct (proj1 B eq_refl) as (v & Q & ->).
    now apply slot_stored.
  - exists false, r. repeat split; auto; try discriminate. intros u Q. apply slot_stored in Q.
    assert (false = true); [|discriminate]. apply B. exists u. split; auto. unfold node_is in NI. destruct (used a); congruence.
Qed.
End Cache.
