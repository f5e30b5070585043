(** C51, C66, C67: application directories. *)
From Verif Require Import Base M_AppInfo S_AppInfo P_AppInfo.
Open Scope N_scope.

(** Runs to the end without touching anything outside the buffer. *)
Definition inside (b : bytes) (r : res answer) : Prop :=
  exists b' a, r = Ok (b', a) /\ length b' = length b.

Lemma delivered_inside b r t : delivered (length b) r t -> inside b r.
Proof. intros (b' & a & E & L & _). exists b', a. auto. Qed.

(** ** C51 *)
(** Every buffer size and application name, except a buffer of exactly 5 bytes for the
    temporary directory. *)
Theorem C51_system_and_temp_inside : forall b app,
  inside b (GetSystemAppStorageDir b app) /\ (length b <> 5%nat -> inside b (GetTempStorageDir b)).
Proof.
  intros b app. split; [exact (delivered_inside _ _ _ (System_ok b app))|].
  intros N. exact (delivered_inside _ _ _ (Temp_ok b N)).
Qed.

(** The home directory: exactly when HOME is not empty and the buffer does not have exactly
    the length of HOME. *)
Theorem C51_user_inside_iff : forall e b app,
  inside b (GetCurrentUserAppStorageDir e b app) <->
  match home e with None => True | Some h => h <> [] /\ length b <> length h end.
Proof.
  intros e b app. split.
  - intros (b' & a & E & L). destruct (home e) as [h|] eqn:Eh; auto.
    unfold GetCurrentUserAppStorageDir in E. destruct (clear_ok b) as (b0 & E0 & L0). rewrite E0, Eh in E. cbn [bind] in E.
    split; intros X.
    + subst h. cbn [length] in E. change (length b <? 0)%nat with false in E. cbn iota in E.
      destruct b0 as [|x b0]; [discriminate E|]. cbn in E. discriminate E.
    + rewrite X, Nat.ltb_irrefl in E. rewrite strcpy_over in E by lia. discriminate E.
  - destruct (home e) as [h|] eqn:Eh.
    + intros [Hn N]. exact (delivered_inside _ _ _ (User_ok e b app h Eh Hn N)).
    + intros _. unfold GetCurrentUserAppStorageDir. destruct (clear_ok b) as (b0 & E0 & L0). rewrite E0, Eh. cbn [bind].
      exists b0, None. auto.
Qed.

(** Names delivered by the system contain no NUL (they are C strings). *)
Theorem C51_executable_inside : forall e b argv0, clean e ->
  inside b (GetExecutableFilename e b argv0) /\ inside b (GetExecutablePath e b argv0).
Proof.
  intros e b argv0 C. split.
  - destruct (Exe_ok e b argv0 C) as (b' & a & E & L & _). exists b', a. auto.
  - destruct (ExePath_ok e b argv0 C) as (b' & a & E & L & _). exists b', a. auto.
Qed.

(** REFUTED: a buffer of 5 bytes gets 6 bytes of /tmp/; a buffer of the length of HOME gets its
    terminator behind the end; an empty HOME makes the code read in front of the buffer. *)
Theorem C51_outside_refuted :
  (forall b, length b = 5%nat -> GetTempStorageDir b = UB) /\
  (forall e b h app, home e = Some h -> length b = length h -> GetCurrentUserAppStorageDir e b app = UB) /\
  (forall e b app, home e = Some [] -> b <> [] -> GetCurrentUserAppStorageDir e b app = UB).
Proof.
  split; [|split].
  - intros b L. unfold GetTempStorageDir. destruct (clear_ok b) as (b0 & E0 & L0). rewrite E0. cbn [bind]. rewrite L.
    change (5 <? 5)%nat with false. cbn iota. rewrite strcpy_over by (cbn [length]; lia). reflexivity.
  - intros e b h app Eh L. unfold GetCurrentUserAppStorageDir. destruct (clear_ok b) as (b0 & E0 & L0). rewrite E0, Eh. cbn [bind].
    rewrite L, Nat.ltb_irrefl. rewrite strcpy_over by lia. reflexivity.
  - intros e b app Eh N. unfold GetCurrentUserAppStorageDir. destruct (clear_ok b) as (b0 & E0 & L0). rewrite E0, Eh. cbn [bind length].
    change (length b <? 0)%nat with false. cbn iota. destruct b as [|x b]; [congruence|]. destruct b0 as [|y b0]; [discriminate|].
    reflexivity.
Qed.

(** ** C66 *)
(** With at least one byte more than text and terminator the documented directory is returned,
    with its size; otherwise the call returns false. *)
Theorem C66_directories : forall b app,
  delivered (length b) (GetSystemAppStorageDir b app) (storage [47;118;97;114;47;108;105;98;47] [] app) /\
  (length b <> 5%nat -> delivered (length b) (GetTempStorageDir b) [47;116;109;112;47]) /\
  (forall e h, home e = Some h -> h <> [] -> length b <> length h ->
    delivered (length b) (GetCurrentUserAppStorageDir e b app) (storage h [46] app)).
Proof.
  intros b app. split; [apply System_ok|]. split; [apply Temp_ok|]. intros e h. apply User_ok.
Qed.

(** REFUTED: a directory that fits exactly, terminator included, is refused, for every
    application name and home directory. *)
Theorem C66_exact_fit_refuted : forall b app,
  (length b = S (length (storage [47;118;97;114;47;108;105;98;47] [] app)) ->
    exists b', GetSystemAppStorageDir b app = Ok (b', None)) /\
  (length b = 6%nat -> exists b', GetTempStorageDir b = Ok (b', None)) /\
  (forall e h, home e = Some h -> h <> [] -> length b = S (length (storage h [46] app)) ->
    exists b', GetCurrentUserAppStorageDir e b app = Ok (b', None)).
Proof.
  intros b app. split; [|split].
  - intros L. destruct (System_ok b app) as (b' & a & E & _ & A). rewrite (proj2 (Nat.leb_gt _ _)) in A by lia. subst. eauto.
  - intros L. destruct (Temp_ok b ltac:(lia)) as (b' & a & E & _ & A). rewrite L in A. cbn in A. subst. eauto.
  - intros e h Eh Hn L. pose proof (storage_long h [46] app).
    destruct (User_ok e b app h Eh Hn ltac:(lia)) as (b' & a & E & _ & A). rewrite (proj2 (Nat.leb_gt _ _)) in A by lia. subst. eauto.
Qed.

(** ** C67 *)
(** When the link to the executable is shorter than the buffer: exactly the resolved name, or
    false when it cannot be resolved or does not fit; GetExecutablePath gives its directory. *)
Theorem C67_executable : forall e b argv0 c, clean e -> readable (links e) = Some c -> c <> [] -> (length c < length b)%nat ->
  exists b' a b2 a2, GetExecutableFilename e b argv0 = Ok (b', a) /\ GetExecutablePath e b argv0 = Ok (b2, a2) /\
  match realpath e c with
  | Some f => if (length f <? length b)%nat
      then a = Some (S (length f)) /\ holds b' f /\
           exists d, directory f d /\ a2 = Some (S (length d)) /\ holds b2 d
      else a = None /\ a2 = None
  | None => a = None /\ a2 = None
  end.
Proof.
  intros e b argv0 c C Hc Hn L. destruct (Exe_ok e b argv0 C) as (b' & a & E & _ & H).
  destruct (ExePath_ok e b argv0 C) as (b2 & a2 & E2 & _ & H2).
  exists b', a, b2, a2. split; auto. split; auto.
  assert (Q : query e (length b) argv0 = Some c).
  { unfold query. rewrite Hc. destruct (length b) as [|k]; [lia|]. destruct c as [|x c]; [congruence|].
    rewrite firstn_all2 by lia. reflexivity. }
  rewrite Q in *. destruct (realpath e c) as [f|] eqn:Ef.
  - destruct (Nat.ltb_spec (length f) (length b)) as [G|G].
    + destruct a as [n|]; [|specialize (H c f eq_refl Ef); lia].
      destruct H as (q & f' & Eq & Ef' & _ & -> & Hh). inversion Eq; subst q. assert (f' = f) by congruence. subst f'.
      split; auto. split; auto. destruct a2 as [n2|]; [|specialize (H2 c f eq_refl Ef); lia].
      destruct H2 as (q & f' & d & Eq2 & Ef2 & D & -> & Hd). inversion Eq2; subst q. assert (f' = f) by congruence. subst f'.
      exists d. auto.
    + split.
      * destruct a as [n|]; auto. destruct H as (q & f' & Eq & Ef' & Lf & _). inversion Eq; subst q.
        assert (f' = f) by congruence. subst f'. lia.
      * destruct a2 as [n2|]; auto. exfalso. unfold GetExecutablePath in E2. rewrite E in E2. cbn [bind] in E2.
        destruct a as [n|]; [|discriminate E2]. destruct H as (q & f' & Eq & Ef' & Lf & _). inversion Eq; subst q.
        assert (f' = f) by congruence. subst f'. lia.
  - split.
    + destruct a as [n|]; auto. destruct H as (q & f' & Eq & Ef' & _). inversion Eq; subst q. congruence.
    + destruct a2 as [n2|]; auto. destruct H2 as (q & f' & d & Eq & Ef' & _). inversion Eq; subst q. congruence.
Qed.

(** REFUTED for longer links: the link text is cut to the buffer, and if the cut name happens
    to exist that other file is returned as the executable.  Here the link is /bin/sh, the
    buffer has 5 bytes, and /bin exists. *)
Theorem C67_truncated_refuted : exists e b b', clean e /\
  readable (links e) = Some [47;98;105;110;47;115;104] /\
  realpath e [47;98;105;110;47;115;104] = Some [47;98;105;110;47;115;104] /\
  GetExecutableFilename e b None = Ok (b', Some 5%nat) /\ holds b' [47;98;105;110].
Proof.
  exists (Env None [Some [47;98;105;110;47;115;104]] (fun n => if existsb (N.eqb 0) n then None else Some n)), [1;1;1;1;1], [47;98;105;110;0].
  split; [split|].
  - cbn. intros c [X|[]]. inversion X. subst c. cbn. lia.
  - cbn. intros n f. destruct (existsb (N.eqb 0) n) eqn:Q; intros X; inversion X; subst. intros I.
    assert (existsb (N.eqb 0) f = true) by (apply existsb_exists; exists 0; auto). congruence.
  - repeat split; try reflexivity. exists []. reflexivity.
Qed.

Definition env1 : env := Env (Some [47;104]) [None; Some [47;98;47;120]] (fun n => Some (47 :: 114 :: n)).
Example C51_example :
  GetCurrentUserAppStorageDir env1 (repeat 9 9) (Some [97]) = Ok ([47;104;47;46;97;47;0;9;9], Some 7%nat) /\
  GetCurrentUserAppStorageDir env1 (repeat 9 7) (Some [97]) = Ok ([47;104;47;46;97;47;0], None) /\
  GetCurrentUserAppStorageDir env1 (repeat 9 2) (Some [97]) = UB /\
  GetTempStorageDir (repeat 9 5) = UB /\ GetTempStorageDir (repeat 9 7) = Ok ([47;116;109;112;47;0;9], Some 6%nat).
Proof. vm_compute. repeat split; reflexivity. Qed.
Example C66_example :
  GetSystemAppStorageDir (repeat 9 12) (Some [97]) = Ok ([47;118;97;114;47;108;105;98;47;97;47;0], None) /\
  GetSystemAppStorageDir (repeat 9 13) (Some [97]) = Ok ([47;118;97;114;47;108;105;98;47;97;47;0;9], Some 12%nat).
Proof. vm_compute. auto. Qed.
Example C67_example :
  GetExecutableFilename env1 (repeat 9 8) None = Ok ([47;114;47;98;47;120;0;0], Some 7%nat) /\
  GetExecutablePath env1 (repeat 9 8) None = Ok ([47;114;47;98;47;0;0;0], Some 6%nat).
Proof. vm_compute. auto. Qed.

Print Assumptions C51_system_and_temp_inside.
Print Assumptions C51_user_inside_iff.
Print Assumptions C51_executable_inside.
Print Assumptions C51_outside_refuted.
Print Assumptions C66_directories.
Print Assumptions C66_exact_fit_refuted.
Print Assumptions C67_executable.
Print Assumptions C67_truncated_refuted.
