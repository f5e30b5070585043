(** C145: File::Copy among other processes changes only the destination. *)
From Verif Require Import Base S_Attr S_Secret S_CopyRace M_Attr M_CopyRace P_CopyRace.
Open Scope N_scope.

(** Undisturbed, the copy has the attributes C103 is about, made of those the file had, or of those
    of a new file. *)
Theorem C145_alone : forall strip u mask newgroup buf0 f0 s ns f s' d, src_is f0 = Some s -> node f0 s = Some ns ->
  crun strip u mask newgroup buf0 nobody (f0, PStat1) (f, PEnd (Some (s', d))) ->
  s' = s /\ dst_is f = Some d /\ exists x n, node f d = Some n /\ attr n = Copy_attrs strip u (attr ns) x /\
  ((dst_is f0 = Some d /\ exists m, node f0 d = Some m /\ x = attr m) \/
   (dst_is f0 = None /\ exists now, x = Attrs (euid u) newgroup (N.ldiff (perms (attr ns) mod 512) mask) now now)).
Proof.
  intros strip u mask newgroup buf0 f0 s ns f s' d Hs Hn R.
  destruct (run_alone strip u mask newgroup buf0 f0 s ns Hs Hn _ _ R eq_refl) as (_ & E1 & E2 & x & n & F & N & A). split; [exact E1|]. split; [exact E2|]. exists x, n. auto.
Qed.

(** And it can succeed, over a file and as a new one. *)
Theorem C145_works : forall strip u mask newgroup buf0 f0 s ns d, src_is f0 = Some s -> node f0 s = Some ns -> may_read u (attr ns) = true -> d <> s ->
  (dst_is f0 = Some d /\ exists n, node f0 d = Some n /\ may_write u (attr n) = true) \/ (dst_is f0 = None /\ node f0 d = None) ->
  exists f, crun strip u mask newgroup buf0 nobody (f0, PStat1) (f, PEnd (Some (s, d))).
Proof.
  intros strip u mask newgroup buf0 f0 s ns d Hs Hn Hr Ne Hd.
  assert (R0 : crun strip u mask newgroup buf0 nobody (f0, PStat1) (f0, POpen2 (attr ns) s)).
  { eapply cr_own; [eapply cr_own; [eapply cr_own; [apply cr_nil|apply o_stat1; eassumption]|apply o_stat2]|eapply o_open1; eassumption]. destruct Hd as [[E _]|[E _]]; congruence. }
  assert (R1 : exists f1 nd, crun strip u mask newgroup buf0 nobody (f0, PStat1) (f1, PRead (attr ns) s d 0 0 buf0) /\ dst_is f1 = Some d /\ node f1 d = Some nd /\ node f1 s = Some ns).
  { destruct Hd as [[E (n & En & W)]|[E En]].
    - exists f0, n. split; [eapply cr_own; [exact R0|eapply o_open2; eassumption]|auto].
    - eexists. eexists. split; [eapply cr_own; [exact R0|apply (o_open2_new strip u mask newgroup buf0 f0 (attr ns) s d (0, 0)); assumption]|]. split; [reflexivity|].
      split; [apply (set_same f0 d)|]. rewrite <- Hn. apply (set_other f0 d s). congruence. }
  destruct R1 as (f1 & nd & R1 & D1 & N1 & N2). destruct (to_chown strip u mask newgroup buf0 nobody (attr ns) s d f1 ns nd Ne N2 N1) as (f2 & R2 & _ & E2 & _ & n2 & E4 & _).
  destruct (finish strip u mask newgroup buf0 nobody (attr ns) s d f2 d n2 ltac:(congruence) E4) as (f3 & R3 & _). exists f3. eapply crun_trans; [exact R1|]. eapply crun_trans; [exact R2|exact R3].
Qed.

(** Whatever the others do with the names: a file they leave alone, and which the destination's name
    stands for at no moment, stays as it is, contents and attributes. *)
Theorem C145_only : forall strip u mask newgroup buf0 o f0 f c i n, apart i o -> node f0 i = Some n -> dst_is f0 <> Some i ->
  crun strip u mask newgroup buf0 o (f0, PStat1) (f, c) -> node f i = Some n.
Proof.
  intros strip u mask newgroup buf0 o f0 f c i n A H D R. destruct (run_apart strip u mask newgroup buf0 i n o _ _ R A H D) as [X _]; [discriminate|exact X].
Qed.

(** Whatever the others do with names and attributes, if they leave contents alone: when Copy
    succeeds, the one file it has written has the contents of the one file it has read, up to the
    bytes that C54 is about. *)
Theorem C145_contents : forall strip u mask newgroup buf0 o f0 f s d, length buf0 = COPY -> no_writes o ->
  crun strip u mask newgroup buf0 o (f0, PStat1) (f, PEnd (Some (s, d))) ->
  d <> s /\ exists a b t, node f s = Some a /\ node f d = Some b /\ data b = data a ++ t /\ (length t < COPY)%nat.
Proof.
  intros strip u mask newgroup buf0 o f0 f s d LB W R. destruct (run_inv strip u mask newgroup buf0 o _ _ LB W R I) as (Ne & S & D & (a & Ea & <-) & (b & Eb & <-) & t & Et & Lt).
  split; [exact Ne|]. exists a, b, t. auto.
Qed.

(** From stat to the open files, for root, when the destination is new. *)
Lemma to_open2 strip u mask newgroup buf0 o f s ns : euid u = 0 -> src_is f = Some s -> node f s = Some ns -> dst_is f = None ->
  crun strip u mask newgroup buf0 o (f, PStat1) (f, POpen1 (attr ns)).
Proof.
  intros R Hs Hn Hd. eapply cr_own; [eapply cr_own; [apply cr_nil|apply o_stat1; eassumption]|]. apply o_stat2. congruence.
Qed.

Lemma root_reads u a : euid u = 0 -> may_read u a = true.
Proof. intro R. unfold may. rewrite R. reflexivity. Qed.
Lemma root_attrs strip u a x : euid u = 0 -> owner (Copy_attrs strip u a x) = owner a /\ group (Copy_attrs strip u a x) = group a /\ perms (Copy_attrs strip u a x) = perms a mod 4096.
Proof.
  intro R. assert (Q : root u = true) by (unfold root; rewrite R; reflexivity). unfold Copy_attrs, sys_chown, sys_chmod, sys_utimes. rewrite Q. cbn [orb fst snd owner group perms]. auto.
Qed.

(** Who can change what the destination's name stands for, and does it just before the last calls,
    makes a copying root give any file the owner, the group and the rights of the source. *)
Theorem C145_attrs_refuted : forall strip u mask newgroup buf0 f0 s ns d v nv, euid u = 0 ->
  src_is f0 = Some s -> node f0 s = Some ns -> dst_is f0 = None -> node f0 d = None -> node f0 v = Some nv -> v <> s ->
  exists f n, crun strip u mask newgroup buf0 move_dst (f0, PStat1) (f, PEnd (Some (s, d))) /\
    node f v = Some n /\ data n = data nv /\ owner (attr n) = owner (attr ns) /\ group (attr n) = group (attr ns) /\ perms (attr n) = perms (attr ns) mod 4096.
Proof.
  intros strip u mask newgroup buf0 f0 s ns d v nv R Hs Hn Hd Fd Hv Ne.
  assert (Dn : d <> s) by congruence. assert (Dv : v <> d) by congruence.
  set (f1 := FS (src_is f0) (Some d) (node (set_node f0 d (Fl (Attrs (euid u) newgroup (N.ldiff (perms (attr ns) mod 512) mask) (0, 0) (0, 0)) [])))).
  assert (R1 : crun strip u mask newgroup buf0 move_dst (f0, PStat1) (f1, PRead (attr ns) s d 0 0 buf0)).
  { eapply cr_own; [eapply cr_own; [eapply to_open2; eassumption|eapply o_open1; [eassumption|eassumption|apply root_reads; exact R]]|]. apply o_open2_new; assumption. }
  assert (N1 : forall i, i <> d -> node f1 i = node f0 i) by (intros i Hi; apply (set_other f0 d i _ Hi)).
  destruct (to_chown strip u mask newgroup buf0 move_dst (attr ns) s d f1 ns (Fl (Attrs (euid u) newgroup (N.ldiff (perms (attr ns) mod 512) mask) (0, 0) (0, 0)) [])) as (f2 & R2 & _ & _ & E3 & _).
  { exact Dn. } { rewrite N1 by congruence. exact Hn. } { apply (set_same f0 d). }
  set (f3 := FS (src_is f2) (Some v) (node f2)).
  assert (Hv3 : node f3 v = Some nv). { cbn. rewrite E3, N1 by exact Dv. exact Hv. }
  destruct (finish strip u mask newgroup buf0 move_dst (attr ns) s d f3 v nv eq_refl Hv3) as (f4 & R4 & _ & _ & E4).
  exists f4. eexists. split.
  - eapply crun_trans; [exact R1|]. eapply crun_trans; [exact R2|]. eapply crun_trans; [|exact R4]. eapply cr_other; [apply cr_nil|]. split; reflexivity.
  - split; [exact E4|]. split; [reflexivity|]. cbn [attr]. apply root_attrs. exact R.
Qed.

(** Who can change what the source's name stands for gets a copy of any file with the owner, the
    group and the rights of their own. *)
Theorem C145_rights_refuted : forall strip u mask newgroup buf0 f0 p np q nq d, euid u = 0 -> length buf0 = COPY -> perms (attr np) < 4096 ->
  src_is f0 = Some p -> node f0 p = Some np -> node f0 q = Some nq -> dst_is f0 = None -> node f0 d = None ->
  exists f n t, crun strip u mask newgroup buf0 move_src (f0, PStat1) (f, PEnd (Some (q, d))) /\
    node f d = Some n /\ data n = data nq ++ t /\ forall bit w, may bit w (attr n) = may bit w (attr np).
Proof.
  intros strip u mask newgroup buf0 f0 p np q nq d R LB Pm Hs Hp Hq Hd Fd.
  assert (Dq : d <> q) by congruence.
  set (f1 := FS (Some q) (dst_is f0) (node f0)).
  set (f2 := FS (src_is f1) (Some d) (node (set_node f1 d (Fl (Attrs (euid u) newgroup (N.ldiff (perms (attr np) mod 512) mask) (0, 0) (0, 0)) [])))).
  assert (R1 : crun strip u mask newgroup buf0 move_src (f0, PStat1) (f2, PRead (attr np) q d 0 0 buf0)).
  { assert (R0 : crun strip u mask newgroup buf0 move_src (f0, PStat1) (f1, POpen1 (attr np))).
    { eapply cr_other; [apply (to_open2 strip u mask newgroup buf0 move_src f0 p np R Hs Hp Hd)|]. split; reflexivity. }
    eapply cr_own; [eapply cr_own; [exact R0|apply (o_open1 strip u mask newgroup buf0 f1 (attr np) q nq eq_refl Hq); apply root_reads; exact R]|]. apply o_open2_new; assumption. }
  destruct (to_chown strip u mask newgroup buf0 move_src (attr np) q d f2 nq (Fl (Attrs (euid u) newgroup (N.ldiff (perms (attr np) mod 512) mask) (0, 0) (0, 0)) [])) as (f3 & R2 & E1 & E2 & E3 & n3 & E4 & _).
  { exact Dq. } { rewrite <- Hq. apply (set_other f1 d q). congruence. } { apply (set_same f1 d). }
  assert (Hq3 : node f3 q = Some nq). { rewrite E3 by congruence. rewrite <- Hq. apply (set_other f1 d q). congruence. }
  destruct (finish strip u mask newgroup buf0 move_src (attr np) q d f3 d n3 E2 E4) as (f4 & R4 & _ & E5 & E6).
  assert (RR : crun strip u mask newgroup buf0 move_src (f0, PStat1) (f4, PEnd (Some (q, d)))) by (eapply crun_trans; [exact R1|]; eapply crun_trans; [exact R2|exact R4]).
  destruct (C145_contents strip u mask newgroup buf0 move_src f0 f4 q d LB) as (_ & a & b & t & Ea & Eb & Et & _); [intros f f' i n [_ E] X; exists n; rewrite E; auto|exact RR|].
  assert (a = nq) as -> by (rewrite E5 in Ea by congruence; congruence).
  exists f4, b, t. split; [exact RR|]. split; [exact Eb|]. split; [exact Et|]. intros bit w.
  assert (b = Fl (Copy_attrs strip u (attr np) (attr n3)) (data n3)) as -> by congruence. cbn [attr].
  destruct (root_attrs strip u (attr np) (attr n3) R) as (A1 & A2 & A3). unfold may. rewrite A1, A2, A3, N.mod_small by exact Pm. reflexivity.
Qed.

(** A file of user 1000 is copied by root, while the name of the copy is made to stand for a file of
    root that only root may read.  Afterwards it belongs to user 1000. *)
Example C145_ex :
  let f0 := FS (Some 1%nat) None (fun i => match i with
     | 1%nat => Some (Fl (Attrs 1000 1000 420 (5, 0) (6, 0)) [104; 105])
     | 2%nat => Some (Fl (Attrs 0 0 384 (7, 0) (8, 0)) [115]) | _ => None end) in
  exists f n, crun (fun p => p) (User 0 (fun _ => true)) 18 0 (repeat 0 COPY) move_dst (f0, PStat1) (f, PEnd (Some (1, 3)%nat)) /\
    node f 2%nat = Some n /\ data n = [115] /\ owner (attr n) = 1000 /\ group (attr n) = 1000 /\ perms (attr n) = 420.
Proof.
  intro f0. destruct (C145_attrs_refuted (fun p => p) (User 0 (fun _ => true)) 18 0 (repeat 0 COPY) f0 1%nat _ 3%nat 2%nat _ eq_refl eq_refl eq_refl eq_refl eq_refl eq_refl ltac:(discriminate)) as (f & n & R & H).
  exists f, n. split; [exact R|exact H].
Qed.

(** Nobody touches file 4, and Copy does not, either. *)
Example C145_only_ex strip u mask newgroup buf0 f c :
  let n4 := Fl (Attrs 0 0 384 (7, 0) (8, 0)) [115] in
  let f0 := FS (Some 1%nat) (Some 2%nat) (fun i => if Nat.eq_dec i 4 then Some n4 else Some (Fl (Attrs 1000 1000 420 (5, 0) (6, 0)) [104])) in
  crun strip u mask newgroup buf0 (fun x y => node y = node x /\ In (dst_is y) [None; Some 2%nat; Some 3%nat]) (f0, PStat1) (f, c) -> node f 4%nat = Some n4.
Proof.
  intros n4 f0 R. refine (C145_only _ _ _ _ _ _ f0 f c 4%nat n4 _ _ _ R); [|reflexivity|discriminate].
  intros x y [E X]. split; [rewrite E; reflexivity|]. intros _ Y. rewrite Y in X. cbn in X. intuition discriminate.
Qed.

Print Assumptions C145_alone.
Print Assumptions C145_works.
Print Assumptions C145_only.
Print Assumptions C145_contents.
Print Assumptions C145_attrs_refuted.
Print Assumptions C145_rights_refuted.
