(** C150: recursive Dir::Rmdir when only so many directories can be open at the same time. *)
From Verif Require Import Base S_Utf8 S_Path S_Tree M_Path M_Dir M_RmdirFds P_MixedVar P_Path P_Dir P_RmdirFds Prop_Dir.
From Coq Require Import String Ascii.
Open Scope N_scope.

(** If nothing lies more than [n] levels below the directory, [n] open directories are enough: it and
    everything beneath it goes, and nothing else. *)
Theorem C150_enough : forall sgn cwd g2 g3 gr t name n, machine cwd g2 g3 gr -> let p := place cwd (unix name) in
  nice sgn name -> proper (hd [] (split (unix name))) -> (List.length cwd + List.length name + 3 <= LIM)%nat ->
  sound t -> (forall r k, In (p ++ r, k) t -> (List.length r <= n)%nat) ->
  p <> [] -> lookup t p = Some KDir ->
  (forall q, under p q -> lookup t q = Some KDir -> nice sgn (render q) /\ ~ In 92 (render q) /\ (List.length cwd + List.length (render q) + 3 <= LIM)%nat) ->
  (forall q, under p q -> lookup t q <> None -> (List.length (render q) <= LIM)%nat) ->
  exists t', Rmdir_fds sgn cwd g2 g3 gr n t name true = Ok (t', true) /\
    (forall q, under p q -> lookup t' q = None) /\ (forall q, ~ under p q -> lookup t' q = lookup t q).
Proof.
  intros sgn cwd g2 g3 gr t name n (G & Cc & Ac & Pc) p Nn Pn Len So HD Hp Lp Kn Ln.
  apply (rmdir_fds_removes sgn cwd g2 g3 gr) with (D := (List.length p + n)%nat); try assumption; try (intro d; apply (G d)).
  - intros q k Hq [r ->]. fold p in Hq |- *. rewrite app_length. pose proof (HD r k Hq). lia.
  - fold p. lia.
  - intros q (c & r & ->) Hq. apply Ln; [exists (c :: r); reflexivity|exact Hq].
Qed.

(** If something does, the call fails, for every tree and every name: whatever lies more than [n]
    levels below the directory stays, as do the directory and all that is not below it. *)
Theorem C150_stays : forall sgn cwd g2 g3 gr t name n s p r, machine cwd g2 g3 gr -> sound t -> ctext name ->
  absname sgn cwd g2 g3 gr name = Ok (Some s) -> place_of t s = Some p -> lookup t p = Some KDir ->
  (n < List.length r)%nat -> lookup t (p ++ r) <> None ->
  exists t', Rmdir_fds sgn cwd g2 g3 gr n t name true = Ok (t', false) /\
    (forall q, ~ below p q -> lookup t' q = lookup t q) /\ (forall r', (n < List.length r')%nat -> lookup t' (p ++ r') = lookup t (p ++ r')).
Proof.
  intros sgn cwd g2 g3 gr t name n s p r (G & Cc & Ac & Pc) So Cn Es Ep Lp Hr Lr.
  apply (rmdir_fds_deep sgn cwd g2 g3 gr) with (s := s) (r := r); try assumption; intro d; apply (G d).
Qed.

(** Directories in one another, [m] of them, each called "d". *)
Definition nest (m : nat) : tree := List.map (fun i => (repeat (chars "d") (S i), KDir)) (seq 0 m).

Lemma nest_in m q k : In (q, k) (nest m) <-> k = KDir /\ exists i, (i < m)%nat /\ q = repeat (chars "d") (S i).
Proof.
  unfold nest. rewrite in_map_iff. split.
  - intros (i & E & I). apply in_seq in I. injection E as <- <-. split; [reflexivity|]. exists i. split; [lia|reflexivity].
  - intros [-> (i & Hi & ->)]. exists i. split; [reflexivity|]. apply in_seq. lia.
Qed.
Lemma nest_lookup m i : (i < m)%nat -> lookup (nest m) (repeat (chars "d") (S i)) = Some KDir.
Proof.
  intro Hi. cbn [repeat lookup]. change (chars "d" :: repeat (chars "d") i) with (repeat (chars "d") (S i)).
  assert (I : In (repeat (chars "d") (S i), KDir) (nest m)) by (apply nest_in; eauto). pose proof (in_entry _ _ _ I) as E.
  destruct (entry (nest m) (repeat (chars "d") (S i))) as [k|] eqn:X; [|congruence]. apply entry_in, nest_in in X. destruct X as [-> _]. reflexivity.
Qed.
Lemma nest_sound m : sound (nest m).
Proof.
  split.
  - intros q k I. apply nest_in in I. destruct I as [_ (i & _ & ->)]. split; [discriminate|]. apply Forall_forall. intros x Hx. apply repeat_spec in Hx. subst x.
    unfold fname. vm_compute. repeat split; try discriminate; repeat constructor; intuition discriminate.
  - intros q c L. destruct (lookup_in _ _ L) as [X|[k I]]; [destruct q; discriminate|]. apply nest_in in I. destruct I as [_ (i & Hi & E)].
    cbn [repeat] in E. rewrite repeat_cons in E. apply app_inj_tail in E. destruct E as [-> _]. destruct i as [|i]; [reflexivity|]. apply nest_lookup. lia.
Qed.

(** However many directories can be open, there is a tree of that many and two more which Rmdir does
    not remove: of "/d" with directories inside, it says false and the innermost one is still there. *)
Theorem C150_refuted : forall n, let t := nest (S (S n)) in sound t /\
  exists t', Rmdir_fds true (chars "/") blanks blanks blanks n t (chars "/d") true = Ok (t', false) /\ lookup t' (repeat (chars "d") (S (S n))) = Some KDir.
Proof.
  intros n t. split; [apply nest_sound|]. pose proof (nest_lookup (S (S n)) (S n) ltac:(lia)) as Ld.
  destruct (C150_stays true (chars "/") blanks blanks blanks t (chars "/d") n (chars "/d") [chars "d"] (repeat (chars "d") (S n))) as (t' & E & _ & D).
  - split; [|split; [vm_compute; repeat constructor; discriminate|split; [|vm_compute; repeat constructor; discriminate]]].
    + intro d. assert (O : octets (blanks d)) by (apply Forall_forall; intros x Hx; apply repeat_spec in Hx; subst x; lia).
      repeat split; try exact O; try (unfold blanks; apply repeat_length). unfold blanks. rewrite nth_repeat. discriminate.
    + vm_compute. eauto.
  - apply nest_sound.
  - vm_compute. repeat constructor; try discriminate.
  - vm_compute. reflexivity.
  - unfold t. vm_compute. reflexivity.
  - apply (nest_lookup (S (S n)) 0). lia.
  - rewrite repeat_length. lia.
  - change ([chars "d"] ++ repeat (chars "d") (S n)) with (repeat (chars "d") (S (S n))). unfold t. rewrite Ld. discriminate.
  - exists t'. split; [exact E|]. specialize (D (repeat (chars "d") (S n)) ltac:(rewrite repeat_length; lia)). cbn [app] in D. change (chars "d" :: repeat (chars "d") (S n)) with (repeat (chars "d") (S (S n))) in D. rewrite D. exact Ld.
Qed.

(** With two directories open, "/d/e/f" goes, "/d/e/f/g" does not: but the file next to it is lost. *)
Example C150_ex :
  let t := [([chars "d"], KDir); ([chars "d"; chars "e"], KDir); ([chars "d"; chars "e"; chars "f"], KDir)] in
  let u := ([chars "d"; chars "h"], KFile) :: ([chars "d"; chars "e"; chars "f"; chars "g"], KFile) :: t in
  Rmdir_fds true (chars "/") blanks blanks blanks 2 t (chars "/d") true = Ok ([], true) /\
  Rmdir_fds true (chars "/") blanks blanks blanks 2 u (chars "/d") true = Ok (tl u, false) /\
  Rmdir_fds true (chars "/") blanks blanks blanks 3 u (chars "/d") true = Ok ([], true).
Proof. vm_compute. repeat split; reflexivity. Qed.

Print Assumptions C150_enough.
Print Assumptions C150_stays.
Print Assumptions C150_refuted.
