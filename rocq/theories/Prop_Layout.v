(** C96, C97, C98 and C99: the layout of synchronisation objects, and shared memory. *)
From Verif Require Import Base S_Layout M_Named M_Layout Prop_Named.
Open Scope N_scope.

(** ** Consecutive pieces *)
(** Pieces in order from [b] that end at [e] or before. *)
Fixpoint chain (b : N) (ps : list piece) (e : N) : Prop :=
  match ps with [] => b <= e | p :: r => b <= at_ p /\ chain (at_ p + size p) r e end.
Lemma chain_le ps : forall b e, chain b ps e -> b <= e.
Proof. induction ps as [|p ps IH]; intros b e H; [exact H|]. destruct H as [H1 H2]. apply IH in H2. lia. Qed.
Lemma chain_app ps qs : forall b m e, chain b ps m -> chain m qs e -> chain b (ps ++ qs) e.
Proof.
  induction ps as [|p ps IH]; intros b m e H1 H2; cbn [app]; [|destruct H1 as [H1 H3]; split; [exact H1|exact (IH _ _ _ H3 H2)]].
  cbn [chain] in H1. destruct qs as [|q qs]; cbn [chain] in *; [lia|]. split; [lia|exact (proj2 H2)].
Qed.
Lemma chain_in ps : forall b e p, chain b ps e -> In p ps -> b <= at_ p /\ at_ p + size p <= e.
Proof.
  induction ps as [|q ps IH]; intros b e p H I; [destruct I|]. destruct H as [H1 H2]. destruct I as [<-|I]; [split; [exact H1|exact (chain_le _ _ _ H2)]|].
  destruct (IH _ _ _ H2 I). split; lia.
Qed.
Lemma chain_laid ps e : chain 0 ps e -> laid_out e ps.
Proof.
  generalize 0 at 1. intros b H. split; [|intros p I; exact (proj2 (chain_in _ _ _ _ H I))].
  revert b H. induction ps as [|q ps IH]; intros b H i j p r Hi Hj Ne; [destruct i; discriminate|]. destruct H as [H1 H2].
  destruct i as [|i], j as [|j]; cbn [nth_error] in *; [congruence| | |].
  - injection Hi as <-. apply nth_error_In in Hj. left. exact (proj1 (chain_in _ _ _ _ H2 Hj)).
  - injection Hj as <-. apply nth_error_In in Hi. right. exact (proj1 (chain_in _ _ _ _ H2 Hi)).
  - exact (IH _ H2 i j p r Hi Hj ltac:(congruence)).
Qed.

Lemma chain_more ps : forall b e e', chain b ps e -> e <= e' -> chain b ps e'.
Proof. induction ps as [|p ps IH]; intros b e e' H L; [cbn [chain] in *; lia|]. destruct H as [H1 H2]. split; [exact H1|exact (IH _ _ _ H2 L)]. Qed.

Section Chains.
Variables align mutex mneed cond cneed : N.
Hypothesis A0 : align <> 0.

Lemma up x : x <= align_size align x. Proof. apply align_bound. exact A0. Qed.
Lemma sem_chain b : chain b (GetUnixSemaphore align mutex mneed cond cneed b) (b + GetUnixSemaphoreSize align mutex cond).
Proof.
  unfold GetUnixSemaphore, GetUnixSemaphoreSize. pose proof (up mutex). pose proof (up 4). pose proof (up cond). cbn [chain at_ size]. repeat split; lia.
Qed.
Lemma event_chain b : chain b (GetUnixEvent align mutex mneed cond cneed b) (b + GetUnixEventSize align mutex cond).
Proof.
  unfold GetUnixEvent, GetUnixEventSize. pose proof (up mutex). pose proof (up 4). pose proof (up 2). pose proof (up cond). cbn [chain at_ size]. repeat split; lia.
Qed.
Lemma contents_chain k b : chain b (contents_at align mutex mneed cond cneed k b) (b + TempSize align mutex cond k).
Proof.
  pose proof (up 4) as U4. destruct k; unfold contents_at, TempSize; try apply sem_chain; [apply event_chain| |cbn [chain at_ size]; split; lia].
  eapply chain_app; [apply sem_chain|]. cbn [chain at_ size]. split; [lia|]. eapply chain_app.
  - pose proof (event_chain (b + GetUnixSemaphoreSize align mutex cond + align_size align 4)) as E. unfold GetUnixEvent in E |- *. cbn [chain at_ size] in E |- *. destruct E as [E1 E2]. split; [lia|exact E2].
  - pose proof (sem_chain (b + GetUnixSemaphoreSize align mutex cond + align_size align 4 + GetUnixEventSize align mutex cond)) as E. rewrite !N.add_assoc. exact E.
Qed.
End Chains.

(** ** C96 *)
(** No two parts of an object overlap, and all lie in the memory that is allocated for it. *)
Theorem C96_laid_out align mutex mneed cond cneed named k : align <> 0 ->
  laid_out (allocated align mutex cond named k) (pieces align mutex mneed cond cneed named k).
Proof.
  intro A0. apply chain_laid. unfold allocated, pieces. destruct named.
  - eapply chain_app; [|].
    + instantiate (1 := start_pos align mutex). unfold header, start_pos. pose proof (up align A0 1). pose proof (up align A0 mutex). pose proof (up align A0 4). cbn [chain at_ size]. repeat split; lia.
    + eapply chain_more; [apply contents_chain; exact A0|]. unfold object_size. pose proof (up align A0 (TempSize align mutex cond k + start_pos align mutex)). lia.
  - eapply chain_more; [apply contents_chain; exact A0|]. rewrite N.add_0_l. apply up. exact A0.
Qed.

(** For shared memory whose size with its header exceeds a size_t, hardly anything is allocated. *)
Theorem C96_huge : exists n, n < 2 ^ 64 /\ allocated64 4 40 48 (KShared n) = 0 /\
  In (Piece (start_pos 4 40) n 1) (pieces 4 40 8 48 8 true (KShared n)).
Proof. exists (2 ^ 64 - 48). split; [reflexivity|]. split; [reflexivity|]. right. right. right. left. reflexivity. Qed.

(** Below that nothing wraps. *)
Theorem C96_fits align mutex cond k : align <> 0 -> TempSize align mutex cond k + start_pos align mutex + align <= 2 ^ 64 ->
  allocated64 align mutex cond k = allocated align mutex cond true k.
Proof.
  intros A0 H. unfold allocated64, allocated, object_size, W64. cbv zeta. rewrite (N.mod_small (TempSize align mutex cond k + start_pos align mutex)) by lia.
  unfold align_size at 1. pose proof (N.mod_lt (TempSize align mutex cond k + start_pos align mutex) align A0) as L.
  generalize dependent (TempSize align mutex cond k + start_pos align mutex). intros n Hn L. destruct (N.eqb_spec (n mod align) 0); [reflexivity|]. apply N.mod_small. generalize dependent (n mod align). intros; lia.
Qed.

(** A named reader-writer lock on 64-bit Linux: 17 pieces in 340 bytes. *)
Example C96_ex : length (pieces 4 40 8 48 8 true KReadWrite) = 17%nat /\ allocated 4 40 48 true KReadWrite = 340 /\
  nth_error (pieces 4 40 8 48 8 true KReadWrite) 16 = Some (Piece 292 48 8).
Proof. vm_compute. auto. Qed.

(** ** C97 *)
Lemma mod_sum n a b : n <> 0 -> a mod n = 0 -> b mod n = 0 -> (a + b) mod n = 0.
Proof. intros N0 Ha Hb. rewrite N.add_mod by exact N0. rewrite Ha, Hb. apply N.mod_0_l. exact N0. Qed.
Lemma mod_trans n m a : n <> 0 -> m <> 0 -> m mod n = 0 -> a mod m = 0 -> a mod n = 0.
Proof.
  intros N0 M0 H1 H2. apply N.mod_divide in H1; [|exact N0]. apply N.mod_divide in H2; [|exact M0]. apply N.mod_divide; [exact N0|]. exact (N.divide_trans _ _ _ H1 H2).
Qed.

(** Every part is aligned if the alignment size is a multiple of what every type needs. *)
Theorem C97_aligned align mutex mneed cond cneed named k base :
  align <> 0 -> mneed <> 0 -> cneed <> 0 -> align mod mneed = 0 -> align mod cneed = 0 -> align mod 4 = 0 -> base mod align = 0 ->
  well_placed base (pieces align mutex mneed cond cneed named k).
Proof.
  intros A0 M0 C0 AM AC A4 B.
  assert (U : forall x, align_size align x mod align = 0) by (intro x; apply align_bound; exact A0).
  assert (S2 : forall a b, a mod align = 0 -> b mod align = 0 -> (a + b) mod align = 0) by (intros a b; apply mod_sum; exact A0).
  assert (One : forall a, a mod 1 = 0) by (intro a; apply N.mod_1_r).
  assert (P : forall a n nd, a mod align = 0 -> nd <> 0 -> align mod nd = 0 -> (base + at_ (Piece a n nd)) mod need (Piece a n nd) = 0).
  { intros a n nd Ha Nd An. cbn [at_ need]. apply (mod_trans nd align); [exact Nd|exact A0|exact An|]. apply S2; assumption. }
  assert (F : forall ps, Forall (fun p => (base + at_ p) mod need p = 0) ps -> well_placed base ps) by (intros ps H p I; exact (proj1 (Forall_forall _ _) H p I)).
  assert (Sem : forall b, b mod align = 0 -> Forall (fun p => (base + at_ p) mod need p = 0) (GetUnixSemaphore align mutex mneed cond cneed b)).
  { intros b Hb. unfold GetUnixSemaphore. repeat (constructor; [apply P; try assumption; try discriminate; repeat (apply S2; auto); auto|]). constructor. }
  assert (Ev : forall b, b mod align = 0 -> Forall (fun p => (base + at_ p) mod need p = 0) (GetUnixEvent align mutex mneed cond cneed b)).
  { intros b Hb. unfold GetUnixEvent. constructor; [apply P; assumption|]. constructor; [apply One|]. constructor; [apply One|].
    repeat (constructor; [apply P; try assumption; try discriminate; repeat (apply S2; auto); auto|]). constructor. }
  assert (SZ : GetUnixSemaphoreSize align mutex cond mod align = 0) by (unfold GetUnixSemaphoreSize; repeat (apply S2; auto); auto).
  assert (EZ : GetUnixEventSize align mutex cond mod align = 0) by (unfold GetUnixEventSize; repeat (apply S2; auto); auto).
  assert (C : forall b, b mod align = 0 -> Forall (fun p => (base + at_ p) mod need p = 0) (contents_at align mutex mneed cond cneed k b)).
  { intros b Hb. destruct k; unfold contents_at; try (apply Sem; exact Hb); [apply Ev; exact Hb| |constructor; [apply One|constructor]].
    apply Forall_app. split; [apply Sem; exact Hb|]. constructor; [apply P; [apply S2; assumption|discriminate|exact A4]|]. apply Forall_app. split; [apply Ev|apply Sem]; repeat (apply S2; auto); auto. }
  apply F. unfold pieces. destruct named; [|apply C; apply N.mod_0_l; exact A0]. apply Forall_app. split; [|apply C; unfold start_pos; repeat (apply S2; auto); auto].
  unfold header. constructor; [apply One|]. constructor; [apply P; auto|]. constructor; [apply P; [apply S2; auto|discriminate|exact A4]|constructor].
Qed.

(** But the alignment size is that of an int. *)
Theorem C97_int : forall int, int <> 0 -> GetUnixSystemAlignmentSize int = int.
Proof.
  intros int N0. unfold GetUnixSystemAlignmentSize, align_size. destruct (N.eq_dec int 1) as [->|N1]; [reflexivity|].
  assert (E : (int + 1) mod int = 1). { rewrite N.add_comm. rewrite <- (N.mul_1_l int) at 1. rewrite N.mod_add by exact N0. apply N.mod_small. lia. }
  rewrite E. cbn [N.eqb]. lia.
Qed.

(** So on 64-bit Linux (mutexes of 40 and conditions of 48 bytes, both to be aligned to 8) the first
    mutex of every named object is misplaced, and so is the event of an unnamed reader-writer lock. *)
Theorem C97_refuted : let align := GetUnixSystemAlignmentSize 4 in
  (forall k base, base mod 4096 = 0 -> ~ well_placed base (pieces align 40 8 48 8 true k)) /\
  (forall base, base mod 16 = 0 -> ~ well_placed base (pieces align 40 8 48 8 false KReadWrite)).
Proof.
  cbv zeta. change (GetUnixSystemAlignmentSize 4) with 4. split.
  - intros k base B W. specialize (W (Piece 4 40 8) ltac:(right; left; reflexivity)). cbn [at_ need] in W.
    apply (mod_trans 8 4096) in B; [|discriminate|discriminate|reflexivity]. rewrite N.add_mod in W by discriminate. rewrite B in W. discriminate.
  - intros base B W. specialize (W (Piece 100 40 8)). cbn [at_ need] in W. specialize (W ltac:(vm_compute; tauto)).
    apply (mod_trans 8 16) in B; [|discriminate|discriminate|reflexivity]. rewrite N.add_mod in W by discriminate. rewrite B in W. discriminate.
Qed.

(** An unnamed mutex is well placed there; with an alignment size of 8 everything would be. *)
Example C97_ex : Forall (fun p => (4096 + at_ p) mod need p = 0) (pieces 4 40 8 48 8 false KMutex) /\
  Forall (fun p => (4096 + at_ p) mod need p = 0) (pieces 8 40 8 48 8 true KReadWrite).
Proof. split; repeat constructor. Qed.

(** ** C98 *)
Lemma win_first h : forall r s, (isopen s = true -> first s = r) ->
  let s' := fold_left Create_win h s in
  isopen s' = true -> first s' = fold_left (fun r c => match c with ShmNoName => r | ShmCreate (Some fresh) true => fresh | ShmCreate _ _ => false end) h r.
Proof.
  induction h as [|c h IH]; intros r s H; [exact H|]. cbn [fold_left]. apply IH. destruct c as [|[fresh|] [|]]; cbn; try discriminate; auto.
Qed.
(** Windows: First() tells whether the last Create made the object. *)
Theorem C98_windows h : isopen (fold_left Create_win h shm_new) = true -> first (fold_left Create_win h shm_new) = responsible h.
Proof. apply win_first. discriminate. Qed.
(** POSIX: it does for an object that is created once, *)
Theorem C98_once c : isopen (Create_posix shm_new c) = true -> first (Create_posix shm_new c) = responsible [c].
Proof. destruct c as [|[[|]|] [|]]; cbn; auto; discriminate. Qed.
(** but once set it stays set: the second object is an existing one of others. *)
Theorem C98_refuted : exists h, isopen (fold_left Create_posix h shm_new) = true /\ first (fold_left Create_posix h shm_new) = true /\ responsible h = false.
Proof. exists [ShmCreate (Some true) true; ShmCreate (Some false) true]. vm_compute. auto. Qed.
(** What holds there: it tells whether any Create made an object. *)
Theorem C98_ever h : first (fold_left Create_posix h shm_new) = existsb (fun c => match c with ShmCreate (Some true) true => true | _ => false end) h.
Proof.
  assert (G : forall s, first (fold_left Create_posix h s) = first s || existsb (fun c => match c with ShmCreate (Some true) true => true | _ => false end) h); [|exact (G shm_new)].
  induction h as [|c h IH]; intro s; cbn [fold_left existsb]; [rewrite orb_false_r; reflexivity|]. rewrite IH. destruct c as [|[[|]|] [|]]; cbn; destruct (first s); reflexivity.
Qed.
Example C98_ex : responsible [ShmCreate (Some true) true; ShmCreate None false; ShmNoName; ShmCreate (Some false) true] = false /\
  first (fold_left Create_win [ShmCreate (Some true) true; ShmCreate None false; ShmNoName; ShmCreate (Some false) true] shm_new) = false.
Proof. vm_compute. auto. Qed.

(** ** C99 *)
(** Windows: below 4 GiB all the bytes asked for are there; *)
Theorem C99_small n : n < 2 ^ 32 -> mapped_win n = n.
Proof. intro H. apply N.mod_small. exact H. Qed.
(** from 4 GiB on fewer are, whatever the size. *)
Theorem C99_refuted n : 2 ^ 32 <= n -> mapped_win n < n.
Proof. intro H. unfold mapped_win. pose proof (N.mod_lt n W32 ltac:(discriminate)) as L. unfold W32 in *. lia. Qed.
Example C99_ex : mapped_win (5 * 2 ^ 30) = 2 ^ 30.
Proof. reflexivity. Qed.

Print Assumptions C96_laid_out. Print Assumptions C96_huge. Print Assumptions C96_fits.
Print Assumptions C97_aligned. Print Assumptions C97_int. Print Assumptions C97_refuted.
Print Assumptions C98_windows. Print Assumptions C98_once. Print Assumptions C98_refuted. Print Assumptions C98_ever.
Print Assumptions C99_small. Print Assumptions C99_refuted.
