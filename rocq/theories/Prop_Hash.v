(** C21 - C24, C64: the ordered hash. *)
From Verif Require Import Base S_Seq S_Hash M_Dll M_List M_Hash P_Dll P_List P_Hash.

Section T.
Context {V : Type}.
Implicit Types (cs : list (hcall V)) (A : habs V).

(** Any number of containers, each with any hash function and any nonzero
    initial size; any history that obeys the rules of [hstep].  No call has
    undefined behaviour, every result is what the specification says, and
    afterwards: the list walks visit exactly the sequence, GetListSize is its
    length, Find returns the node holding the key, or NULL if there is none,
    no two nodes of a container have the same key, and nodes keep their keys
    and values. *)
Theorem C21_ordered_hash_is_a_map hash size cs A rs :
  (forall i, size i <> 0) ->
  hsteps hash hstart cs A rs ->
  exists w, hrun (hinit hash size) cs = Ok (w, rs) /\
    (forall i n, length (hseqs A i) <= n ->
       walk (hnext w) n (hd_ (hends (hashes w i))) = Ok (hseqs A i) /\
       walk (hprev w) n (tl_ (hends (hashes w i))) = Ok (rev (hseqs A i))) /\
    (forall i, hnum (hashes w i) = N.of_nat (length (hseqs A i))) /\
    (forall i x k v, In x (hseqs A i) -> node A x = Some (k, v) -> find w i k = Ok x) /\
    (forall i k, (forall x v, In x (hseqs A i) -> node A x <> Some (k, v)) -> find w i k = Ok 0) /\
    (forall i, NoDup (map (fun x => option_map fst (node A x)) (hseqs A i))) /\
    (forall x kv, node A x = Some kv -> node_of w x = Ok kv).
Proof.
  intros Hs St.
  destruct (sim_hrun hash cs _ _ _ _ (HR_init hash hash size (fun _ _ => eq_refl) (fun i => proj1 (Nat.neq_0_lt_0 _) (Hs i))) St) as (w & E & H).
  exists w. split; [exact E|]. split; [intros; eapply hobserve; eauto|].
  split; [apply (H_num _ _ _ H)|].
  assert (Fd : forall i k, find w i k = Ok (lookup A i k)).
  { intros i k. unfold find. rewrite (H_fn _ _ _ H). now apply find_from_Ok. }
  split; [|split; [|split]].
  - intros i x k v Hi Hn. rewrite Fd. f_equal. eapply lookup_unique; eauto.
  - intros i k Hk. rewrite Fd. f_equal.
    destruct (lookup_cases A i k (no0 _ _ _ _ H)) as [[K _]|(_ & K1 & K2)]; auto.
    apply has_key_true in K2 as (v & K2). destruct (Hk _ _ K1 K2).
  - intros i. pose proof (H_list _ _ _ H i) as (Nd & _).
    assert (U : forall x y, In x (hseqs A i) -> In y (hseqs A i) ->
      option_map fst (node A x) = option_map fst (node A y) -> x = y).
    { intros x y Hx Hy Q. pose proof (H_owned _ _ _ H _ _ Hx) as Ox. pose proof (H_owned _ _ _ H _ _ Hy) as Oy.
      unfold hexists in *. destruct (node A x) as [[kx vx]|] eqn:Ex; [|congruence].
      destruct (node A y) as [[ky vy]|] eqn:Ey; [|congruence]. cbn in Q. inversion Q; subst.
      eapply (H_uniq _ _ _ H); eauto. }
    revert Nd U. generalize (hseqs A i) as xs. induction xs as [|x xs IH]; intros Nd U; cbn; [constructor|].
    apply NoDup_cons_iff in Nd as [Nx Nd]. constructor.
    + rewrite in_map_iff. intros (y & Q & Hy). apply Nx. replace x with y; auto.
      apply U; [now right|now left|auto].
    + apply IH; auto. intros y z Hy Hz. apply U; now right.
  - intros x kv Hn. eapply node_of_Ok; eauto.
Qed.

(** Resizing at any point changes no later result: every continuation returns
    the same with and without the ResizeHash call; size 0 is refused. *)
Theorem C22_resize_is_invisible hash size cs1 A1 rs1 i n cs2 A2 rs2 :
  (forall i, size i <> 0) ->
  hsteps hash hstart cs1 A1 rs1 -> hsteps hash A1 cs2 A2 rs2 -> n <> 0 ->
  exists w1 w1' w2 w2', hrun (hinit hash size) cs1 = Ok (w1, rs1) /\
    resize w1 i n = Ok (w1', 1) /\ length (table (hashes w1' i)) = n /\
    hrun w1 cs2 = Ok (w2, rs2) /\ hrun w1' cs2 = Ok (w2', rs2) /\
    (forall m, length (hseqs A1 i) <= m ->
       walk (hnext w1') m (hd_ (hends (hashes w1' i))) = walk (hnext w1) m (hd_ (hends (hashes w1 i)))) /\
    (forall k, find w1' i k = find w1 i k) /\
    resize w1 i 0 = Ok (w1, 0).
Proof.
  intros Hs S1 S2 Hn.
  destruct (sim_hrun hash cs1 _ _ _ _ (HR_init hash hash size (fun _ _ => eq_refl) (fun i => proj1 (Nat.neq_0_lt_0 _) (Hs i))) S1) as (w1 & E1 & H1).
  destruct (HR_resize hash w1 A1 i n H1 Hn) as (w1' & E2 & H2).
  destruct (sim_hrun hash cs2 _ _ _ _ H1 S2) as (w2 & E3 & H3).
  destruct (sim_hrun hash cs2 _ _ _ _ H2 S2) as (w2' & E4 & H4).
  exists w1, w1', w2, w2'. split; auto. split; auto. split; [|split; [|split; [|split; [|split]]]]; auto.
  - revert E2. unfold resize. rewrite (eqb_0 _ Hn).
    pose proof (H_list _ _ _ H1 i) as (Nd & Z & Hh & Ht & Sg).
    rewrite (H_num _ _ _ H1), Nnat.Nat2N.id, Hh.
    destruct (rechain_ok (halive w1) (ll w1) (hk w1) (hseqs A1 i) [] (hl w1) (repeat 0 n)) as (Hx & T1 & Ex & Lx & _); auto.
    { apply htab_nil. lia. }
    { intros y Hy. eapply halive_in; eauto. }
    rewrite Ex. cbn [bind]. intros Q. injection Q as <-. cbn. rewrite fupd_same. cbn.
    now rewrite Lx, repeat_length.
  - intros m Hm. rewrite (proj1 (hobserve _ _ _ _ _ H1 Hm)). now rewrite (proj1 (hobserve _ _ _ _ _ H2 Hm)).
  - intros k. unfold find. rewrite (H_fn _ _ _ H1), (H_fn _ _ _ H2).
    now rewrite (find_from_Ok hash w1 A1), (find_from_Ok hash w1' A1).
Qed.

(** Every chain reached from the raw table holds exactly the attached nodes
    whose hash key maps to that slot; also right after any resize. *)
Theorem C22_chains_exact hash size cs A rs :
  (forall i, size i <> 0) ->
  hsteps hash hstart cs A rs ->
  exists w, hrun (hinit hash size) cs = Ok (w, rs) /\
    forall i s t, nth_error (table (hashes w i)) s = Some t ->
      exists c, walk (fun x => getf (halive w) (nx (hl w)) x) (length (hseqs A i)) t = Ok c /\ NoDup c /\
        forall x, In x c <-> In x (hseqs A i) /\ exists k v, node A x = Some (k, v) /\
          N.modulo (hash i (key_bytes k)) (N.of_nat (length (table (hashes w i)))) = N.of_nat s.
Proof.
  intros Hs St.
  destruct (sim_hrun hash cs _ _ _ _ (HR_init hash hash size (fun _ _ => eq_refl) (fun i => proj1 (Nat.neq_0_lt_0 _) (Hs i))) St) as (w & E & H).
  exists w. split; [exact E|]. intros i s t Ht.
  destruct (H_tab _ _ _ H i) as (Hl & ch & Hc).
  assert (Ls : s < length (table (hashes w i))) by (apply nth_error_Some; congruence).
  destruct (Hc s Ls) as (a & b & c & d). rewrite Ht in a. injection a as ->.
  assert (Inc : forall x, In x (ch s) -> In x (hseqs A i)) by (intros x Hx; now apply d in Hx).
  exists (ch s). split; [|split; auto].
  - apply walk_seg; auto.
    + intros l x r Q. rewrite getf_Ok; [f_equal; now apply (seg_last_pv _ _ _ _ c l x r)|].
      apply (halive_in hash w A i); auto. apply Inc. rewrite Q. apply in_or_app; right; now left.
    + intros K. apply Inc in K. eapply no0; eauto.
    + apply NoDup_incl_length; auto.
  - intros x. rewrite d. split; intros [h1 h2]; split; auto.
    + pose proof (H_owned _ _ _ H _ _ h1) as Ox. unfold hexists in Ox.
      destruct (node A x) as [[k v]|] eqn:Ex; [|congruence]. exists k, v. split; auto.
      rewrite (H_hk _ _ _ H) in h2 by (unfold hexists; congruence).
      rewrite (H_cached _ _ _ H _ _ _ _ h1 Ex) in h2. unfold slotn in h2. lia.
    + destruct h2 as (k & v & Ex & h2).
      rewrite (H_hk _ _ _ H) by (unfold hexists; congruence).
      rewrite (H_cached _ _ _ H _ _ _ _ h1 Ex). unfold slotn. lia.
Qed.

(** ** Copies *)
Section Copy.
Context (hash : nat -> bytes -> N) (size : nat -> nat) (cs : list (hcall V)) (A : habs V) (rs : list nat).
Context (Hs : forall i, size i <> 0) (St : hsteps hash hstart cs A rs).
Context (i j : nat) (fresh : list nat) (junk : nat -> nat).
(** Container [i] is being constructed; the allocator returns unused addresses. *)
Context (Hij : i <> j) (Hi : hseqs A i = []).
Context (Hf : NoDup fresh) (Hfl : length (hseqs A j) <= length fresh) (Hff : forall a, In a fresh -> hfree A a).

Lemma copy_runs : exists w w', hrun (hinit hash size) cs = Ok (w, rs) /\ HR hash w A /\
  copy_construct w i j fresh junk = Ok w' /\
  (forall k, find w' i k = Ok 0) /\
  let cl := firstn (length (hseqs A j)) fresh in
  (forall n, length cl <= n -> walk (hnext w') n (hd_ (hends (hashes w' i))) = Ok cl) /\
  tl_ (hends (hashes w' i)) = last cl 0 /\
  map (nd w') cl = map (node A) (hseqs A j) /\
  hnum (hashes w' i) = N.of_nat (length cl) /\
  (forall n, length (hseqs A j) <= n -> walk (hnext w') n (hd_ (hends (hashes w' j))) = Ok (hseqs A j)).
Proof.
  destruct (sim_hrun hash cs _ _ _ _ (HR_init hash hash size (fun _ _ => eq_refl) (fun i => proj1 (Nat.neq_0_lt_0 _) (Hs i))) St) as (w & E & H).
  pose proof (H_list _ _ _ H j) as (Nd & Z & Hh & Ht & Sg).
  pose proof (htab_any _ _ _ _ (H_tab _ _ _ H j)) as Lt.
  destruct (clone_loop_ok (length (table (hashes w j))) junk Lt (hseqs A j) w 0 (Ends 0 0) [] fresh)
    as (w1 & E1 & Q & f1 & f2 & f3 & f4 & f5 & f6 & f7 & f8); auto.
  { intros y Hy. split; [intros ->; auto|]. split; [eapply halive_in; eauto|].
    rewrite (H_node _ _ _ H). eapply (H_owned _ _ _ H); eauto. }
  { intros a Ha. destruct (Hff a Ha) as [a1 a2]. split; auto.
    destruct (halive w a) eqn:Ea; auto. apply (H_alive _ _ _ H) in Ea. destruct (Ea a2). }
  { constructor. }
  { intros l x r K. destruct l; discriminate. }
  exists w. unfold copy_construct. rewrite Hh, Q. cbn [bind].
  eexists; split; [exact E|]. split; [exact H|]. split; [reflexivity|].
  cbv zeta. cbn [app] in *.
  set (cl := firstn (length (hseqs A j)) fresh) in *.
  assert (Icl : forall y, In y cl -> In y fresh) by (intros y Hy; rewrite <- (firstn_skipn (length (hseqs A j)) fresh); apply in_or_app; auto).
  assert (Lcl : length cl = length (hseqs A j)) by (unfold cl; rewrite firstn_length; lia).
  split; [|split; [|split; [|split; [|split]]]].
  - intros k. unfold find, find_from. cbn [hashes set_hobj]. rewrite fupd_same. cbn [table hfn hnum].
    rewrite repeat_length, slot_Ok by auto. cbn [bind]. rewrite rd_repeat0 by now apply slotn_lt.
    cbn [bind]. destruct (N.to_nat (hnum (hashes w j))); reflexivity.
  - intros n Hn. cbn [hashes set_hobj]. rewrite fupd_same. cbn [hends]. rewrite f1.
    apply walk_chained; auto.
    + intros K. destruct (Hff 0); auto.
    + intros y Hy. cbn [halive set_hobj]. apply f4. now right.
  - cbn [hashes set_hobj]. rewrite fupd_same. exact f2.
  - cbn [nd set_hobj]. rewrite f6. apply map_ext. apply (H_node _ _ _ H).
  - cbn [hashes set_hobj]. rewrite fupd_same. cbn. rewrite (H_num _ _ _ H). congruence.
  - intros n Hn. cbn [hashes set_hobj]. rewrite fupd_other by auto. rewrite f7, Hh.
    apply walk_chained; auto.
    + intros l x r K. cbn [ll set_hobj].
      assert (Hx : In x (hseqs A j)) by (rewrite K; apply in_or_app; right; now left).
      destruct (f8 x) as [-> _]; [eapply halive_in; eauto|intros []|].
      now apply (seg_last_pv _ _ _ _ Sg l x r).
    + intros y Hy. cbn [halive set_hobj]. apply f4. left. eapply halive_in; eauto.
Qed.

(** Whatever the original holds, every Find in the copy returns NULL, also
    for the keys the original finds. *)
Theorem C23_copy_finds_nothing_refuted k : lookup A j k <> 0 ->
  exists w w', hrun (hinit hash size) cs = Ok (w, rs) /\ copy_construct w i j fresh junk = Ok w' /\
    find w j k = Ok (lookup A j k) /\ find w' i k = Ok 0.
Proof.
  intros _. destruct copy_runs as (w & w' & E & H & Ec & Fd & _).
  exists w, w'. split; auto. split; auto. split; auto.
  unfold find. rewrite (H_fn _ _ _ H). now apply find_from_Ok.
Qed.

(** Walking the copy from FirstList gives fresh nodes with the keys and values
    of the original in the same order, and the sizes agree; the original is
    untouched. *)
Theorem C23_copy_walks_like_the_original :
  exists w w', hrun (hinit hash size) cs = Ok (w, rs) /\ copy_construct w i j fresh junk = Ok w' /\
    let cl := firstn (length (hseqs A j)) fresh in
    (forall n, length cl <= n -> walk (hnext w') n (hd_ (hends (hashes w' i))) = Ok cl) /\
    tl_ (hends (hashes w' i)) = last cl 0 /\
    map (nd w') cl = map (node A) (hseqs A j) /\
    hnum (hashes w' i) = N.of_nat (length cl) /\
    (forall n, length (hseqs A j) <= n -> walk (hnext w') n (hd_ (hends (hashes w' j))) = Ok (hseqs A j)).
Proof.
  destruct copy_runs as (w & w' & E & H & Ec & Fd & R). exists w, w'. auto.
Qed.
End Copy.

(** ** Nodes left over from Empty(false) *)
Lemma hsteps_app hash : forall cs1 A B rs1, hsteps hash A cs1 B rs1 ->
  forall cs2 C rs2, hsteps hash B cs2 C rs2 -> hsteps hash A (cs1 ++ cs2) C (rs1 ++ rs2).
Proof. induction 1; intros cs2 D rs2 S2; cbn; auto. econstructor; eauto. Qed.

Definition emptied A i (reset : bool) : habs V :=
  HAbs (fupd (hseqs A) i []) (node A) (if reset then mark (hseqs A i) 0%N (carried A) else carried A)
       (mark (hseqs A i) true (left A)).

(** Next to a node of any container with the same hash function a former node
    can be inserted at once, and everything [C21] says holds afterwards. *)
Theorem C24_reinsert_next_to_a_node hash size cs A rs i j x k v pos (after reset : bool) :
  (forall i, size i <> 0) ->
  hsteps hash hstart cs A rs ->
  In x (hseqs A i) -> node A x = Some (k, v) ->
  i <> j -> In pos (hseqs A j) -> lookup A j k = 0 ->
  (reset = true \/ hash i (key_bytes k) = hash j (key_bytes k)) ->
  exists w, hrun (hinit hash size) (cs ++ [HEmpty i false reset;
      if after then HInsertAfterN j pos x else HInsertBeforeN j pos x]) = Ok (w, rs ++ [0; x]) /\
    (forall n, S (length (hseqs A j)) <= n ->
      walk (hnext w) n (hd_ (hends (hashes w j))) =
        Ok (if after then put_after pos x (hseqs A j) else put_before pos x (hseqs A j))) /\
    find w j k = Ok x /\ find w i k = Ok 0.
Proof.
  intros Hs St Hx Hn Dij Hp Hl Hc.
  assert (I0 : HR hash (hinit hash size) (hstart (V:=V))) by (apply HR_init; auto; intros; apply Nat.neq_0_lt_0, Hs).
  destruct (sim_hrun hash cs _ _ _ _ I0 St) as (w0 & E0 & H0).
  set (A2 := attach hash (emptied A i reset) j (put after pos x (hseqs A j)) x k).
  assert (Ep : fupd (hseqs A) i [] j = hseqs A j) by (apply fupd_other; auto).
  assert (Hn' : node (emptied A i reset) x = Some (k, v)) by exact Hn.
  assert (At : ~ hattached (emptied A i reset) x).
  { intros [l K]. cbn in K. destruct (Nat.eq_dec l i) as [->|D].
    - rewrite fupd_same in K. destruct K.
    - rewrite fupd_other in K by auto. apply D. now apply (H_disj _ _ _ H0 l i x). }
  assert (Co : carried_ok hash (emptied A i reset) j x k).
  { unfold carried_ok. cbn. destruct reset.
    - left. now apply mark_in.
    - destruct Hc as [Hc|Hc]; [discriminate|]. right. rewrite <- Hc. eapply (H_cached _ _ _ H0); eauto. }
  assert (Po : hposition (emptied A i reset) j pos) by (right; cbn; now rewrite Ep).
  assert (P0 : pos <> 0) by (intros ->; eapply no0; eauto).
  assert (Lk : lookup (emptied A i reset) j k = 0).
  { unfold lookup. cbn. rewrite Ep. exact Hl. }
  assert (S2 : hsteps hash A [HEmpty i false reset; if after then HInsertAfterN j pos x else HInsertBeforeN j pos x] A2 [0; x]).
  { econstructor; [apply H_EmptyKeep|]. econstructor; [|constructor].
    fold (emptied A i reset). unfold A2. rewrite <- Ep.
    destruct after; cbn [put]; econstructor; eauto. }
  pose proof (hsteps_app _ _ _ _ _ St _ _ _ S2) as S3.
  destruct (sim_hrun hash _ _ _ _ _ I0 S3) as (w & E & H).
  exists w. split; [exact E|].
  assert (Sq : hseqs A2 j = put after pos x (hseqs A j)) by (cbn; apply fupd_same).
  assert (Ix : In x (hseqs A2 j)).
  { rewrite Sq. apply in_put; auto. now right. }
  split; [|split].
  - intros n Hln. rewrite (proj1 (hobserve hash w A2 j n H ltac:(rewrite Sq, length_put; [auto|now right]))).
    rewrite Sq. destruct after; reflexivity.
  - unfold find. rewrite (H_fn _ _ _ H), (find_from_Ok hash w A2 j k H). f_equal.
    eapply lookup_unique; eauto.
  - unfold find. rewrite (H_fn _ _ _ H), (find_from_Ok hash w A2 i k H). f_equal.
    unfold lookup. cbn. rewrite fupd_other by auto. rewrite fupd_same. reflexivity.
Qed.

(** But pushing it onto the emptied hash leaves its old successor behind it:
    for every hash of two or more nodes, after Empty(false) and a Push of the
    former first node, GetListSize is 1 and both ends are that node, yet
    NextList of it is still the former second node. *)
Theorem C24_push_after_empty_refuted hash size cs A rs i x y r (reset : bool) :
  (forall i, size i <> 0) ->
  hsteps hash hstart cs A rs ->
  hseqs A i = x :: y :: r ->
  exists w, hrun (hinit hash size) (cs ++ [HEmpty i false reset; HInsertBeforeN i 0 x]) = Ok (w, rs ++ [0; x]) /\
    hnum (hashes w i) = 1%N /\ hd_ (hends (hashes w i)) = x /\ tl_ (hends (hashes w i)) = x /\
    hnext w x = Ok y.
Proof.
  intros Hs St Ei.
  destruct (sim_hrun hash cs _ _ _ _ (HR_init hash hash size (fun _ _ => eq_refl) (fun i => proj1 (Nat.neq_0_lt_0 _) (Hs i))) St) as (w0 & E0 & H0).
  assert (Hr : forall l1 l2 w w1 r1, hrun (V:=V) w l1 = Ok (w1, r1) ->
    hrun w (l1 ++ l2) = let* (w2, r2) := hrun w1 l2 in Ok (w2, r1 ++ r2)).
  { clear. induction l1 as [|c l1 IH]; intros l2 w w1 r1 Q.
    - cbn in Q. injection Q as <- <-. cbn. now destruct (hrun w l2) as [[? ?]| |].
    - cbn in Q |- *. destruct (hexec w c) as [[w2 x]| |]; cbn in Q |- *; try discriminate.
      destruct (hrun w2 l1) as [[w3 x3]| |] eqn:Q1; cbn in Q; try discriminate. injection Q as <- <-.
      rewrite (IH l2 _ _ _ Q1). now destruct (hrun w3 l2) as [[? ?]| |]. }
  rewrite (Hr _ _ _ _ _ E0). cbn [hrun hexec].
  assert (Ix : In x (hseqs A i)) by (rewrite Ei; now left).
  pose proof (H_owned _ _ _ H0 _ _ Ix) as Hx.
  destruct (node A x) as [[k v]|] eqn:Hn; [|congruence].
  pose proof (H_list _ _ _ H0 i) as (Nd & Z & Hh & Ht & Sg).
  assert (Nxy : nx (ll w0) x = y).
  { rewrite Ei in Sg. cbn [seg hd] in Sg. tauto. }
  assert (Ax : halive w0 x = true) by (eapply halive_in; eauto).
  destruct (sim_hempty_keep hash w0 A i reset H0) as (w1 & E1 & H1).
  assert (F1 : ll w1 = ll w0 /\ halive w1 = halive w0 /\ hends (hashes w1 i) = Ends 0 0 /\ hnum (hashes w1 i) = 0%N).
  { unfold hempty in E1. rewrite (H_num _ _ _ H0), Nnat.Nat2N.id, Hh in E1.
    destruct (empty_loop_keep reset (ll w0) (hseqs A i) 0 w0) as (w2 & E2 & e1 & e2 & _); auto.
    { intros z Hz. eapply halive_in; eauto. }
    rewrite E2 in E1. cbn [bind] in E1. injection E1 as <-. cbn. rewrite fupd_same. auto. }
  destruct F1 as (F1 & F2 & F3 & F4).
  rewrite E1. cbn [bind]. fold (emptied A i reset) in H1.
  assert (Hn' : node (emptied A i reset) x = Some (k, v)) by exact Hn.
  assert (At : ~ hattached (emptied A i reset) x).
  { intros [l K]. cbn in K. destruct (Nat.eq_dec l i) as [->|D].
    - rewrite fupd_same in K. destruct K.
    - rewrite fupd_other in K by auto. apply D. now apply (H_disj _ _ _ H0 l i x). }
  assert (Co : carried_ok hash (emptied A i reset) i x k).
  { unfold carried_ok. cbn. destruct reset.
    - left. now apply mark_in.
    - right. eapply (H_cached _ _ _ H0); eauto. }
  assert (Lk : lookup (emptied A i reset) i k = 0).
  { unfold lookup. cbn. rewrite fupd_same. reflexivity. }
  unfold insert_node.
  destruct (H_loose _ _ _ H1 x Hx At) as (h1 & h2 & _).
  assert (Ax1 : halive w1 x = true) by now rewrite F2.
  rewrite !getf_Ok by auto. cbn [bind]. rewrite h1, h2. cbn [Nat.eqb negb].
  destruct (HR_cache hash w1 _ i x k v H1 Hn' At Co) as (w2 & E2 & H2 & _ & _). rewrite E2. cbn [bind].
  assert (F5 : ll w2 = ll w1 /\ halive w2 = halive w1 /\ hashes w2 = hashes w1).
  { unfold cache_key in E2. rewrite getf_Ok in E2 by auto. cbn [bind] in E2.
    destruct (hk w1 x =? 0)%N; [|injection E2 as <-; auto].
    destruct (node_of w1 x) as [[? ?]| |]; cbn [bind] in E2; try discriminate. injection E2 as <-. auto. }
  destruct F5 as (F5 & F6 & F7).
  assert (Hc2 : carried (cached hash (emptied A i reset) i x k) x = hash i (key_bytes k)) by (cbn; apply fupd_same).
  rewrite (find_node_Ok hash w2 _ i x k v H2 Hn' (or_intror Hc2)). cbn [bind].
  change (lookup (cached hash (emptied A i reset) i x k) i k) with (lookup (emptied A i reset) i k).
  rewrite Lk. cbn [Nat.eqb negb]. unfold link_before. cbn [Nat.eqb].
  rewrite F7, F3. cbn [hd_ tl_ Nat.eqb]. rewrite F6, setf_Ok by auto. cbn [bind].
  unfold finish_insert. cbn [hfn table npp hnum]. rewrite F7, F4.
  assert (Np : forall p, nth_error primes (npp (hashes w1 i)) = Some p -> (p <=? 0 + 1)%N = false).
  { intros p Hp. apply nth_error_In in Hp. unfold primes in Hp. cbn in Hp.
    repeat (destruct Hp as [<-|Hp]; [reflexivity|]). destruct Hp. }
  destruct (chain_front_ok (halive w2) (hl w2) (table (hashes w1 i)) (hk w2) [] x [x]) as (H' & T' & E3 & _); auto.
  { rewrite <- F7. pose proof (H_tab _ _ _ H2 i) as K. cbn [hseqs cached emptied] in K. rewrite fupd_same in K. exact K. }
  { eapply hne0; [exact H1|exact Hx]. }
  { rewrite F6. exact Ax1. }
  { apply (H_loose _ _ _ H2 x Hx At). }
  { intros z. cbn. split; [intros [<-|[]]; auto|intros [->|[]]; auto]. }
  rewrite (getf_Ok (halive w2) (hk w2)) by (rewrite F6; auto). cbn [bind]. rewrite E3. cbn [bind].
  destruct (nth_error primes (npp (hashes w1 i))) as [p|] eqn:Ep; [rewrite (Np p eq_refl)|];
    (eexists; split; [reflexivity|]; cbn; rewrite !fupd_same; cbn; repeat split; auto;
     unfold hnext; cbn; rewrite getf_Ok by (rewrite F6; auto); rewrite F5, F1, Nxy; reflexivity).
Qed.

(** ** Construction *)
(** EstimatedSize 0 leaves the table empty, and the first Find or insertion of
    a value divides by zero. *)
Theorem C64_estimated_size_zero_refuted (hash : nat -> bytes -> N) (size : nat -> nat) i k (v : V) a pos :
  size i = 0 -> a <> 0 ->
  find (hinit (V:=V) hash size) i k = UB /\
  hexec (hinit (V:=V) hash size) (HInsertBeforeV i pos k v a) = UB /\
  hexec (hinit (V:=V) hash size) (HInsertAfterV i pos k v a) = UB.
Proof.
  intros Hz Ha.
  assert (Q : forall after, insert_value after (hinit (V:=V) hash size) i pos k v a = UB).
  { intros after. unfold insert_value, hnew, hinit. cbn [halive]. rewrite (eqb_0 _ Ha). cbn [orb bind].
    unfold insert_node. cbn [halive hl pv nx]. rewrite !getf_Ok by apply fupd_same. cbn [bind].
    rewrite !fupd_same. cbn [Nat.eqb negb]. unfold cache_key. cbn [halive hk].
    rewrite getf_Ok by apply fupd_same. cbn [bind]. rewrite fupd_same. cbn [N.eqb].
    unfold node_of. cbn [halive nd]. rewrite !fupd_same. cbn [bind hashes]. rewrite Hz. cbn [Nat.eqb empty_obj hfn].
    unfold find_node, set_hk. cbn [halive hk nd hashes]. rewrite getf_Ok by apply fupd_same. cbn [bind].
    unfold node_of. cbn [halive nd]. rewrite !fupd_same. cbn [bind].
    unfold find_from. cbn [hashes]. rewrite Hz. cbn [Nat.eqb empty_obj table length]. reflexivity. }
  split; [|split; apply Q].
  unfold find, find_from, hinit. cbn [hashes]. rewrite Hz. reflexivity.
Qed.

(** Every nonzero EstimatedSize gives a usable empty hash. *)
Theorem C64_nonzero_size_usable (hash : nat -> bytes -> N) size i k (v : V) a :
  (forall i, size i <> 0) -> a <> 0 ->
  exists w, hrun (hinit hash size) [HFind i k; HInsertBeforeV i 0 k v a; HFind i k] = Ok (w, [0; a; a]).
Proof.
  intros Hs Ha.
  assert (S1 : exists A, hsteps (V:=V) hash hstart [HFind i k; HInsertBeforeV i 0 k v a; HFind i k] A [0; a; a]).
  { eexists. econstructor.
    - change 0 with (lookup (V:=V) hstart i k). apply H_Find.
    - econstructor.
      + apply H_InsertBeforeV; [split; auto|now left|reflexivity].
      + econstructor; [|constructor].
        match goal with |- hstep _ ?B _ _ _ => assert (Q : lookup B i k = a) end.
        { unfold lookup. cbn. rewrite fupd_same. cbn. unfold has_key. cbn. rewrite fupd_same, key_eqb_refl. reflexivity. }
        rewrite <- Q at 4. apply H_Find. }
  destruct S1 as (A & S1).
  destruct (C21_ordered_hash_is_a_map hash size _ _ _ Hs S1) as (w & E & _). eauto.
Qed.
End T.

(** ** Examples *)
(** All keys collide. *)
Definition h7 : nat -> bytes -> N := fun _ _ => 7%N.
Definition sz3 : nat -> nat := fun _ => 3.
Definition ex_calls : list (hcall N) :=
  [HInsertBeforeV 0 0 (KInt 10) 100 1; HInsertBeforeV 0 0 (KInt 20) 200 2; HInsertAfterV 0 0 (KStr [97;98]) 300 3;
   HInsertBeforeV 0 0 (KInt 20) 999 4; HFind 0 (KInt 20); HInsertBeforeV 0 2 (KInt 40) 400 4; HDetach 0 1 false;
   HFind 0 (KInt 10); HFind 0 (KStr [97;98]); HResize 0 1; HFind 0 (KInt 40)]%N.

Example C21_example : exists w, hrun (hinit h7 sz3) ex_calls = Ok (w, [1; 2; 3; 0; 2; 4; 1; 0; 3; 1; 4]) /\
  walk (hnext w) 5 (hd_ (hends (hashes w 0))) = Ok [3; 4; 2] /\ hnum (hashes w 0) = 3%N.
Proof. eexists. vm_compute. repeat split; reflexivity. Qed.

(** The calls above obey the rules. *)
Example C21_example_legal : exists A, hsteps h7 hstart
  [HInsertBeforeV 0 0 (KInt 10) 100%N 1; HInsertBeforeV 0 0 (KInt 20) 200%N 2; HInsertAfterV 0 0 (KStr [97;98]%N) 300%N 3;
   HInsertBeforeV 0 0 (KInt 20) 999%N 4] A [1; 2; 3; 0] /\ hseqs A 0 = [3; 1; 2].
Proof.
  eexists. split; [|shelve].
  econstructor; [apply H_InsertBeforeV; [split; [lia|reflexivity]|now left|reflexivity]|].
  econstructor; [apply H_InsertBeforeV; [split; [lia|reflexivity]|now left|vm_compute; reflexivity]|].
  econstructor; [apply H_InsertAfterV; [split; [lia|reflexivity]|now left|vm_compute; reflexivity]|].
  econstructor; [apply H_DuplicateBeforeV; [split; [lia|reflexivity]|vm_compute; discriminate]|].
  constructor.
  Unshelve. vm_compute. reflexivity.
Qed.

Example C22_example : exists w, hrun (hinit (fun _ b => hd 0%N b) sz3)
  [HInsertBeforeV 0 0 (KInt 1) 0%N 1; HInsertBeforeV 0 0 (KInt 4) 0%N 2; HResize 0 3; HResize 0 2; HFind 0 (KInt 4); HResize 0 0]
  = Ok (w, [1; 2; 1; 1; 2; 0]) /\ table (hashes w 0) = [2; 1].
Proof. eexists. vm_compute. repeat split; reflexivity. Qed.

Example C23_example : exists w w', hrun (hinit h7 sz3)
  [HInsertBeforeV 0 0 (KInt 1) 5%N 1; HInsertBeforeV 0 0 (KInt 4) 6%N 2] = Ok (w, [1; 2]) /\
  copy_construct w 1 0 [7; 8; 9] (fun _ => 55) = Ok w' /\
  walk (hnext w') 9 (hd_ (hends (hashes w' 1))) = Ok [7; 8] /\ nd w' 8 = Some (KInt 4, 6%N) /\
  find w 0 (KInt 4) = Ok 2 /\ find w' 1 (KInt 4) = Ok 0 /\ hprev w' 7 = Ok 55.
Proof. eexists _, _. vm_compute. repeat split; reflexivity. Qed.

Example C24_example : exists w, hrun (hinit h7 sz3)
  [HInsertBeforeV 0 0 (KInt 1) 5%N 1; HInsertBeforeV 0 0 (KInt 2) 6%N 2; HInsertBeforeV 1 0 (KInt 3) 6%N 3;
   HEmpty 0 false true; HInsertAfterN 1 3 2] = Ok (w, [1; 2; 3; 0; 2]) /\
  walk (hnext w) 9 (hd_ (hends (hashes w 1))) = Ok [3; 2].
Proof. eexists. vm_compute. repeat split; reflexivity. Qed.

Example C24_example_refuted : exists w, hrun (hinit h7 sz3)
  [HInsertBeforeV 0 0 (KInt 1) 5%N 1; HInsertBeforeV 0 0 (KInt 2) 6%N 2; HEmpty 0 false true; HInsertBeforeN 0 0 1]
    = Ok (w, [1; 2; 0; 1]) /\
  hnum (hashes w 0) = 1%N /\ walk (hnext w) 9 (hd_ (hends (hashes w 0))) = Ok [1; 2].
Proof. eexists. vm_compute. repeat split; reflexivity. Qed.

Example C64_example : find (hinit (V:=N) h7 (fun _ => 0)) 0 (KInt 5) = UB.
Proof. reflexivity. Qed.

Print Assumptions C21_ordered_hash_is_a_map.
Print Assumptions C22_resize_is_invisible.
Print Assumptions C22_chains_exact.
Print Assumptions C23_copy_finds_nothing_refuted.
Print Assumptions C23_copy_walks_like_the_original.
Print Assumptions C24_reinsert_next_to_a_node.
Print Assumptions C24_push_after_empty_refuted.
Print Assumptions C64_estimated_size_zero_refuted.
Print Assumptions C64_nonzero_size_usable.
