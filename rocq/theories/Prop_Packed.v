(** C25 - C28: the packed ordered hash. *)
From Verif Require Import Base S_Seq S_Hash S_Packed M_Packed P_Dll P_List P_Hash P_Packed P_Packed2 P_Packed3.

Section T.
Context {V : Type}.
Context (dflt : V).
Implicit Types (s : pobj V) (A : slots (V:=V)) (cs : list (pcall V)).

Lemma distinct_nil : distinct (V:=V) [].
Proof. intros k [|p] q [v E]; discriminate. Qed.

(** Any hash function, any initial size up to 2^30, any history that obeys the
    rules of [plegal].  No call has undefined behaviour, every result is one
    the specification allows, GetSize is the number of entries, GetNextPos the
    number of slots, every node holds its key and value, and Find returns the
    slot of the key or NULL. *)
Theorem C25_packed_hash_is_a_map hf n cs :
  (N.of_nat n <= 2 ^ 30)%N -> plegal_run dflt [] cs ->
  exists s0 s rs A, pinit hf n = Ok s0 /\ prun dflt s0 cs = Ok (s, rs) /\ psteps dflt [] cs A rs /\
    pused s = length (entries A) /\ length (parr s) = length A /\ NoDup (map fst (entries A)) /\
    (forall p k v, nth_error A p = Some (Some (k, v)) -> holds_at s p k v /\ pfind s k = Ok (Some p)) /\
    (forall k, key_ok k -> ~ In k (map fst (entries A)) -> pfind s k = Ok None).
Proof.
  intros L Hl. destruct (PR_init (V:=V) hf n L) as (s0 & E0 & R0 & _).
  destruct (sim_prun dflt cs s0 [] R0 Hl) as (s & A & rs & E & St & R).
  exists s0, s, rs, A. split; auto. split; auto. split; auto. pose proof R as (I & La & _ & U & D).
  split; auto. split; auto. split; [now apply distinct_nodup|]. split.
  - intros p k v Hp. split; [eapply PR_holds; eauto|]. assert (Hk : key_ok k).
    { destruct I as (_ & _ & Ct & _). eapply Ct. apply nth_Some. exact Hp. }
    apply (PR_find s A k R Hk). now exists v.
  - intros k Hk N. apply (PR_find s A k R Hk). now apply no_key_in.
Qed.

(** The rules are met by every history of fewer than 2^30 calls by key. *)
Definition in_range (c : pcall V) : Prop :=
  match c with
  | PSet k _ | PTouch k | PUnset k | PFind k => key_ok k
  | PResize n => (N.of_nat n <= 2 ^ 30)%N
  | _ => True
  end.
Theorem C25_short_histories_are_legal cs :
  Forall by_key cs -> Forall in_range cs -> (N.of_nat (length cs) < 2 ^ 30)%N -> plegal_run dflt [] cs.
Proof.
  intros F G L.
  assert (X : forall cs A, Forall by_key cs -> Forall in_range cs -> (N.of_nat (length A + length cs) <= 2 ^ 30)%N ->
     plegal_run dflt A cs).
  { clear. induction cs as [|c cs IH]; intros A F G L; cbn [plegal_run length] in *; auto.
    pose proof (Forall_inv F) as Fc. pose proof (Forall_inv G) as Gc.
    split.
    - destruct c; cbn in *; auto; try (split; auto; lia). destruct Fc.
    - intros A' x Sx. apply IH; [now inversion F|now inversion G|].
      assert (length A' <= S (length A)); [|lia].
      pose proof (entries_le A). destruct Sx; rewrite ?app_length, ?upd_length, ?compact_length; cbn [length]; try lia;
      destruct H1 as [->| ->]; rewrite ?compact_length; lia. }
  apply X; auto. cbn [length Nat.add]. lia.
Qed.

(** What the specification's steps do to the map: Set replaces in place or
    appends, Unset removes, everything else keeps it. *)
Theorem C25_steps_update_the_map A c A' r :
  NoDup (map fst (entries A)) -> pstep dflt A c A' r ->
  entries A' = mupdate dflt A c /\ NoDup (map fst (entries A')).
Proof.
  intros D S. apply distinct_nodup in D. split; [now apply pstep_map with r|].
  apply distinct_nodup. eapply distinct_step; eauto.
Qed.

(** The same without slots, for histories that unset by key: the hash behaves
    as the association list obtained by folding the calls. *)
Theorem C25_packed_hash_last_value hf n cs :
  (N.of_nat n <= 2 ^ 30)%N -> plegal_run dflt [] cs -> Forall by_key cs ->
  let m := fold_left (mcall dflt) cs [] in
  exists s0 s rs, pinit hf n = Ok s0 /\ prun dflt s0 cs = Ok (s, rs) /\
    pused s = length m /\
    (forall k, key_ok k -> exists o, pfind s k = Ok o /\
       match o with
       | Some p => exists v, mget m k = Some v /\ holds_at s p k v
       | None => mget m k = None
       end) /\
    (forall f, length m < f -> exists ps, pwalk (pnext_pos s) f (length (parr s)) = (ps, Some (length (parr s))) /\
       Forall2 (fun p e => holds_at s p (fst e) (snd e)) ps m).
Proof.
  intros L Hl F m. destruct (PR_init (V:=V) hf n L) as (s0 & E0 & R0 & _).
  destruct (sim_prun dflt cs s0 [] R0 Hl) as (s & A & rs & E & St & R).
  exists s0, s, rs. split; auto. split; auto.
  assert (Em : entries A = m) by (apply (psteps_map dflt [] cs A rs); auto using distinct_nil).
  pose proof R as (I & La & _ & U & D). split; [congruence|]. split.
  - intros k Hk. destruct (key_dec A k) as [[p Hp]|N].
    + exists (Some p). split; [now apply (PR_find s A k R Hk)|]. destruct Hp as [v Hp]. exists v.
      split; [|eapply PR_holds; eauto]. rewrite <- Em. eapply mget_entries; eauto.
    + exists None. split; [now apply (PR_find s A k R Hk)|]. rewrite <- Em. apply mget_in. now apply no_key_in.
  - intros f Lf. exists (positions A).
    assert (P : map (fun p => nth p A None) (positions A) = map Some m) by (rewrite positions_entries; now rewrite Em).
    split.
    + rewrite <- (positions_set s A R). replace (length (parr s)) with (length (parr s) - 0) at 2 by lia.
      apply walk_next; [lia| |].
      * unfold pnext_pos. now rewrite Nat.leb_refl.
      * rewrite Nat.sub_0_r, (positions_set s A R). rewrite <- (map_length (fun p => nth p A None)), P, map_length. auto.
    + assert (Q : forall p e, nth p A None = Some e -> holds_at s p (fst e) (snd e)).
      { intros p [k v] Hp. apply (PR_holds s A); auto. now apply nth_Some. }
      clear - P Q. revert P. generalize (positions A) as ps. induction m as [|e m IH]; intros [|p ps] P; try discriminate; constructor.
      * apply Q. now injection P.
      * apply IH. now injection P.
Qed.

(** Optimize at any point removes all gaps and changes neither the entries, nor
    their order, nor any lookup. *)
Theorem C26_optimize_compacts hf n cs :
  (N.of_nat n <= 2 ^ 30)%N -> plegal_run dflt [] cs ->
  exists s0 s s' rs A, pinit hf n = Ok s0 /\ prun dflt s0 cs = Ok (s, rs) /\ psteps dflt [] cs A rs /\
    poptimize s = Ok (s', true) /\ length (parr s') = pused s' /\ pused s' = pused s /\
    (forall p k v, nth_error (entries A) p = Some (k, v) -> holds_at s' p k v) /\
    (forall k, key_ok k -> exists o o', pfind s k = Ok o /\ pfind s' k = Ok o' /\
       match o, o' with
       | Some p, Some p' => exists v, holds_at s p k v /\ holds_at s' p' k v
       | None, None => True
       | _, _ => False
       end).
Proof.
  intros L Hl. destruct (PR_init (V:=V) hf n L) as (s0 & E0 & R0 & _).
  destruct (sim_prun dflt cs s0 [] R0 Hl) as (s & A & rs & E & St & R).
  destruct (PR_optimize s A R) as (s' & Eo & R' & _).
  exists s0, s, s', rs, A. split; auto. split; auto. split; auto. split; auto.
  pose proof R as (I & La & _ & U & D). pose proof R' as (I' & La' & _ & U' & D').
  rewrite compact_length in La'. rewrite entries_compact in U'.
  split; [congruence|]. split; [congruence|]. split.
  - intros p k v Hp. apply (PR_holds s' (compact A)); auto. unfold compact. now apply map_nth_error.
  - intros k Hk. destruct (key_dec A k) as [[p Hp]|N].
    + pose proof (proj1 (at_key_entries A k) (ex_intro _ p Hp)) as [v Hv].
      apply In_nth_error in Hv as [p' Hv].
      assert (K : nth_error (compact A) p' = Some (Some (k, v))) by (unfold compact; now apply map_nth_error).
      exists (Some p), (Some p'). split; [now apply (PR_find s A k R Hk)|].
      split; [apply (PR_find s' (compact A) k R' Hk); now exists v|]. exists v.
      split; [|eapply PR_holds; eauto]. destruct Hp as [w Hp]. apply (PR_holds s A); auto.
      assert (w = v) as <-; auto.
      pose proof (mget_entries A k p w D Hp) as M1. pose proof (mget_entries (compact A) k p' v D' K) as M2.
      rewrite entries_compact in M2. congruence.
    + exists None, None. split; [now apply (PR_find s A k R Hk)|]. split; auto.
      apply (PR_find s' (compact A) k R' Hk). now apply no_key_compact.
Qed.

(** Next from GetNextPos (or anything beyond) visits the set positions in
    order, Prev from there in reverse; both then return NULL and leave Pos at
    GetNextPos. *)
Theorem C27_iteration_visits_all hf n cs :
  (N.of_nat n <= 2 ^ 30)%N -> plegal_run dflt [] cs ->
  exists s0 s rs A, pinit hf n = Ok s0 /\ prun dflt s0 cs = Ok (s, rs) /\ psteps dflt [] cs A rs /\
    forall f pos, length A < f -> length (parr s) <= pos ->
      pwalk (pnext_pos s) f pos = (positions A, Some (length (parr s))) /\
      pwalk (pprev_pos s) f pos = (rev (positions A), Some (length (parr s))).
Proof.
  intros L Hl. destruct (PR_init (V:=V) hf n L) as (s0 & E0 & R0 & _).
  destruct (sim_prun dflt cs s0 [] R0 Hl) as (s & A & rs & E & St & R).
  exists s0, s, rs, A. split; auto. split; auto. split; auto. intros f pos Lf Lp.
  assert (Q : length (positions A) < f).
  { rewrite <- (map_length (fun p => nth p A None)), positions_entries, map_length. pose proof (entries_le A). lia. }
  rewrite <- (positions_set s A R) in *. split.
  - replace (length (parr s)) with (length (parr s) - 0) at 1 by lia.
    apply walk_next; [lia| |now rewrite Nat.sub_0_r].
    unfold pnext_pos. now rewrite (proj2 (Nat.leb_le _ _) Lp).
  - destruct f as [|f]; [lia|].
    assert (X : pprev_pos s pos = pprev_pos s (length (parr s))).
    { unfold pprev_pos. rewrite Nat.ltb_irrefl. destruct (Nat.ltb_spec (length (parr s)) pos); auto.
      now replace pos with (length (parr s)) by lia. }
    rewrite <- (walk_prev s (S f) (length (parr s))); auto. cbn [pwalk]. now rewrite X.
Qed.

(** Copying: for every object, however far the loop is followed and wherever
    the two arrays lie, as long as they do not overlap (each block has
    room for [cap] >= NextNodePos nodes and as many 4-byte indexes), the loop reads past the source's nodes. *)
Theorem C28_copy_reads_past_the_nodes_refuted s sz src dst cap fuel :
  (0 < sz)%N -> 0 < cap -> length (parr s) <= cap -> length (parr s) < fuel ->
  (src + N.of_nat cap * (sz + 4) <= dst \/ dst + N.of_nat cap * (sz + 4) <= src)%N ->
  pcopy s sz src dst fuel = UB.
Proof.
  intros Hz Hcap Hl Hf Hd. unfold pcopy.
  rewrite (copy_loop_UB sz src _ (parr s) (length (parr s)) 0 [] fuel); auto.
  intros j Lj Q.
  assert (N.of_nat j * sz <= N.of_nat (length (parr s)) * sz)%N by (apply N.mul_le_mono_r; lia).
  assert (N.of_nat (length (parr s)) * sz <= N.of_nat cap * sz)%N by (apply N.mul_le_mono_r; lia).
  assert (1 * sz <= N.of_nat cap * sz)%N by (apply N.mul_le_mono_r; lia).
  destruct Hd as [Hd|Hd]; [|lia].
  destruct (Nat.eq_dec (length (parr s)) 0) as [Z|Z]; [rewrite Z in *; lia|].
  assert (1 * sz <= N.of_nat (length (parr s)) * sz)%N by (apply N.mul_le_mono_r; lia). lia.
Qed.
End T.

Print Assumptions C25_packed_hash_is_a_map.
Print Assumptions C25_short_histories_are_legal.
Print Assumptions C25_steps_update_the_map.
Print Assumptions C25_packed_hash_last_value.
Print Assumptions C26_optimize_compacts.
Print Assumptions C27_iteration_visits_all.
Print Assumptions C28_copy_reads_past_the_nodes_refuted.

(** A history with all keys colliding, growth from one slot, a gap and reuse. *)
Definition ex_calls : list (pcall nat) :=
  [PSet (KInt 1) 10; PSet (KStr [65; 66]%N) 20; PSet (KInt (-1)) 30; PSet (KInt 1) 11; PUnset (KStr [65; 66]%N);
   PFind (KStr [65; 66]%N); PTouch (KInt 7); PUnsetAt 0; PNext 9; PSet (KInt 1) 12; POptimize; PFind (KInt (-1)); PPrev 9].
Example C25_example :
  let r := let* s := pinit (fun _ => 5%N) 1 in prun 0 s ex_calls in
  match r with
  | Ok (s, rs) =>
      rs = [RNode (Some 0); RNode (Some 1); RNode (Some 2); RNode (Some 0); RBool true; RNode None; RNode (Some 3);
            RBool true; RIter (Some 2) 2; RNode (Some 2); RBool true; RNode (Some 0); RIter (Some 2) 2]
      /\ map pval (parr s) = [Some 30; Some 0; Some 12] /\ pused s = 3 /\ pnum s = 4
  | _ => False
  end.
Proof. vm_compute. repeat split; reflexivity. Qed.
Example C27_example :
  match (let* s := pinit (fun b => hd 0%N b) 8 in
         prun 0 s [PSet (KInt 1) 1; PSet (KInt 2) 2; PSet (KInt 3) 3; PSet (KInt 4) 4; PUnset (KInt 2)]) with
  | Ok (s, _) => pwalk (pnext_pos s) 9 4 = ([0; 2; 3], Some 4) /\ pwalk (pprev_pos s) 9 4 = ([3; 2; 0], Some 4)
  | _ => False
  end.
Proof. vm_compute. repeat split; reflexivity. Qed.
Example C26_example :
  match (let* s := pinit (fun b => hd 0%N b) 8 in
         prun 0 s [PSet (KInt 1) 1; PSet (KInt 2) 2; PSet (KInt 9) 3; PSet (KInt 4) 4; PUnset (KInt 2); POptimize; PFind (KInt 9)]) with
  | Ok (s, rs) => map pval (parr s) = [Some 1; Some 3; Some 4] /\ last rs (RBool false) = RNode (Some 1)
  | _ => False
  end.
Proof. vm_compute. repeat split; reflexivity. Qed.
Example C28_example :
  match (let* s := pinit (fun b => hd 0%N b) 8 in prun 0 s [PSet (KInt 1) 1]) with
  | Ok (s, _) => pcopy s 40 4096 8192 10 = UB
  | _ => False
  end.
Proof. vm_compute. reflexivity. Qed.
