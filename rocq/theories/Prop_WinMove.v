(** Windows: File::Copy, Move and Delete of utf8_file_dir.cpp. *)
From Verif Require Import Base S_WinMove M_WinMove.
Open Scope N_scope.

Lemma wf_eta f : Wf (data f) (att f) = f.
Proof. destruct f; reflexivity. Qed.

Lemma shows_put s i f n : shows (put_file s i f) n = match names s n with Some j => Some (if Nat.eqb j i then f else files s j) | None => None end.
Proof. unfold shows, put_file. cbn [names files]. destruct (names s n); reflexivity. Qed.
Lemma shows_name s n o m : shows (put_name s n o) m = if Nat.eqb m n then option_map (files s) o else shows s m.
Proof. unfold shows, put_name. cbn [names files]. destruct (Nat.eqb m n); reflexivity. Qed.

Lemma set_shows ok s n a m : shows (SetAtt ok s n a) m =
  match names s m with Some j => Some (match names s n with Some i => if ok && Nat.eqb j i then Wf (data (files s i)) a else files s j | None => files s j end) | None => None end.
Proof.
  unfold SetAtt. destruct (names s n) as [i|]; [|unfold shows; destruct (names s m); reflexivity]. destruct ok; cbn [andb]; [|unfold shows; destruct (names s m); reflexivity].
  rewrite shows_put. reflexivity.
Qed.
Lemma set_names ok s n a m : names (SetAtt ok s n a) m = names s m.
Proof. unfold SetAtt. destruct (names s n); [destruct ok; reflexivity|reflexivity]. Qed.

(** C107.  Delete. *)

(** True exactly if the name is gone; the contents of every other file stay, and its attributes too
    unless it is another name of the same file. *)
Theorem C107_deletes : forall E s n, let '(t, r) := WDelete E s n in
  (r = true -> shows s n <> None /\ shows t n = None) /\ (r = false -> option_map data (shows t n) = option_map data (shows s n)) /\
  elsewhere s t n /\ (forall m, m <> n -> option_map data (shows t m) = option_map data (shows s m)).
Proof.
  intros E s n. unfold WDelete, DeleteFileW. rewrite set_names.
  assert (K : forall m, option_map data (shows (SetAtt (e_clear E) s n NORMAL) m) = option_map data (shows s m)).
  { intro m. rewrite set_shows. unfold shows. destruct (names s m) as [j|]; [|reflexivity]. cbn [option_map]. destruct (names s n) as [i|]; [|reflexivity]. destruct (e_clear E); cbn [andb]; [|reflexivity]. destruct (Nat.eqb_spec j i) as [-> |_]; reflexivity. }
  assert (O : forall m, names s m <> names s n -> shows (SetAtt (e_clear E) s n NORMAL) m = shows s m).
  { intros m H. rewrite set_shows. unfold shows. destruct (names s m) as [j|] eqn:Em; [|reflexivity]. cbn [option_map]. destruct (names s n) as [i|] eqn:En; [|reflexivity]. destruct (e_clear E); cbn [andb]; [|reflexivity].
    destruct (Nat.eqb_spec j i) as [-> |_]; [congruence|reflexivity]. }
  destruct (names s n) as [i|] eqn:En.
  - match goal with |- context [if ?c then _ else _] => destruct c end.
    + split; [intros _; split; [unfold shows; rewrite En; discriminate|rewrite shows_name, Nat.eqb_refl; reflexivity]|]. split; [discriminate|]. split.
      * intros m Hm Hn. rewrite shows_name. destruct (Nat.eqb_spec m n); [contradiction|]. apply O. rewrite <- En. exact Hn.
      * intros m Hm. rewrite shows_name. destruct (Nat.eqb_spec m n); [contradiction|]. apply K.
    + split; [discriminate|]. split; [intros _; apply K|]. split; [intros m _ Hn; apply O; rewrite <- En; exact Hn|intros m _; apply K].
  - split; [discriminate|]. split; [intros _; apply K|]. split; [intros m _ Hn; apply O; rewrite <- En; exact Hn|intros m _; apply K].
Qed.
Print Assumptions C107_deletes.

(** Read-only files are deleted too. *)
Theorem C107_all : forall E s n, shows s n <> None -> e_clear E = true -> e_delete E = true -> snd (WDelete E s n) = true.
Proof.
  intros E s n H C D. unfold WDelete, DeleteFileW. rewrite set_names. unfold shows in H. unfold SetAtt. destruct (names s n) as [i|]; [|contradiction H; reflexivity].
  rewrite C, D. cbn [andb]. unfold put_file. cbn [files]. rewrite Nat.eqb_refl. reflexivity.
Qed.
Print Assumptions C107_all.

(** But a file that cannot be deleted loses its attributes. *)
Theorem C107_refuted : forall E s n f, shows s n = Some f -> e_clear E = true -> e_delete E = false ->
  snd (WDelete E s n) = false /\ shows (fst (WDelete E s n)) n = Some (Wf (data f) NORMAL).
Proof.
  intros E s n f H C D. unfold WDelete, DeleteFileW. rewrite set_names. pose proof (set_shows true s n NORMAL n) as S. rewrite C. unfold shows in H. destruct (names s n) as [i|] eqn:En; [|discriminate H].
  rewrite D. cbn [andb fst snd]. split; [reflexivity|]. rewrite S. cbn [andb]. rewrite Nat.eqb_refl. injection H as <-. reflexivity.
Qed.
Print Assumptions C107_refuted.

(** C108.  Copy. *)

Lemma copy_true E s a b t : a <> b -> CopyFileW E s a b = (t, true) -> unused s (e_new E) ->
  (forall m, m <> b -> names t m = names s m) /\ (exists j, names t b = Some j /\ names s a <> Some j /\ files t j = match names s a with Some i => files s i | None => files s j end /\ (forall k, k <> j -> files t k = files s k)) /\ names s a <> None /\
  (forall j, names s b = Some j -> names t b = Some j).
Proof.
  intros Nb H U. unfold CopyFileW in H. destruct (names s a) as [i|] eqn:Ea; [|discriminate H]. destruct (names s b) as [j|] eqn:Eb.
  - destruct (Nat.eqb_spec i j) as [X|X]; [discriminate H|]. destruct (read_only (files s j)); [discriminate H|]. cbn [orb] in H. destruct (e_copy E).
    + injection H as <-. split; [reflexivity|]. split; [|split; [discriminate|intros k Hk; exact (eq_trans Eb Hk)]]. exists j. split; [exact Eb|]. split; [congruence|]. cbn [put_file files]. split; [rewrite Nat.eqb_refl; reflexivity|].
      intros k Hk. destruct (Nat.eqb_spec k j); [contradiction|reflexivity].
    + destruct (e_junk E); discriminate H.
  - destruct (e_copy E).
    + injection H as <-. split; [intros m Hm; cbn [put_file put_name names]; destruct (Nat.eqb_spec m b); [contradiction|reflexivity]|]. split; [|split; discriminate]. exists (e_new E).
      cbn [put_file put_name names files]. rewrite Nat.eqb_refl. split; [reflexivity|]. split; [rewrite <- Ea; apply U|]. split; [rewrite Nat.eqb_refl; reflexivity|].
      intros k Hk. destruct (Nat.eqb_spec k (e_new E)); [contradiction|reflexivity].
    + destruct (e_junk E); discriminate H.
Qed.

(** True: the destination has the contents and the attributes of the source (the attributes in any
    case, because CopyFileW sets them too), the source and all other files are as before. *)
Theorem C108_copies : forall E s a b t, WCopy E s a b = (t, true) -> unused s (e_new E) ->
  exists f, shows s a = Some f /\ shows t b = Some f /\ shows t a = Some f /\ elsewhere s t b.
Proof.
  intros E s a b t H U. unfold WCopy in H. destruct (names s a) as [i|] eqn:Ea; [|discriminate H]. destruct (negb (e_info_src E)); [discriminate H|].
  destruct (match names s b with Some j => e_info_dest E && Nat.eqb i j | None => false end); [discriminate H|].
  set (s1 := SetAtt (e_clear E) s b NORMAL) in *. destruct (CopyFileW E s1 a b) as [s2 r] eqn:C. injection H as <- ->.
  assert (Nm : forall m, names s1 m = names s m) by (intro m; apply set_names).
  assert (Nb : a <> b).
  { intros ->. unfold CopyFileW in C. rewrite Nm, Ea, Nat.eqb_refl in C. discriminate C. }
  assert (U1 : unused s1 (e_new E)) by (intro m; rewrite Nm; apply U).
  destruct (copy_true E s1 a b s2 Nb C U1) as (K1 & (j & K2 & K3 & K4 & K5) & _ & K6). rewrite Nm, Ea in K3, K4.
  assert (Ij : i <> j) by congruence.
  assert (Fi : files s1 i = files s i).
  { unfold s1, SetAtt. destruct (names s b) as [j'|] eqn:Eb; [|reflexivity]. destruct (e_clear E); [|reflexivity]. cbn [put_file files]. destruct (Nat.eqb_spec i j') as [X|]; [|reflexivity].
    exfalso. apply Ij. assert (Q : names s2 b = Some j') by (apply K6; rewrite Nm; exact Eb). congruence. }
  exists (files s i). unfold shows at 1. rewrite Ea. split; [reflexivity|].
  rewrite !set_shows. rewrite K2. rewrite (K1 a Nb), Nm, Ea. rewrite Nat.eqb_refl, andb_true_r. destruct (Nat.eqb_spec i j) as [X|_]; [contradiction|]. rewrite andb_false_r.
  split; [rewrite K4, Fi, wf_eta; destruct (e_restore E); reflexivity|]. split; [rewrite K5, Fi by exact Ij; reflexivity|].
  intros m Hm Hn. rewrite set_shows. rewrite (K1 m Hm), Nm, K2. unfold shows. destruct (names s m) as [k|] eqn:Em; [|reflexivity]. cbn [option_map].
  assert (Kj : k <> j).
  { intros ->. destruct (names s b) as [j'|] eqn:Eb.
    - assert (Q : names s2 b = Some j') by (apply K6; rewrite Nm; exact Eb). congruence.
    - unfold CopyFileW in C. rewrite !Nm, Ea, Eb in C. destruct (e_copy E); [|destruct (e_junk E); discriminate C]. injection C as <-. cbn [put_file put_name names] in K2. rewrite Nat.eqb_refl in K2. injection K2 as <-. exact (U m Em). }
  destruct (Nat.eqb_spec k j) as [X|_]; [contradiction|]. rewrite andb_false_r, (K5 k Kj). f_equal. unfold s1, SetAtt. destruct (names s b) as [j'|]; [|reflexivity]. destruct (e_clear E); [|reflexivity]. cbn [put_file files].
  destruct (Nat.eqb_spec k j') as [-> |]; [congruence|reflexivity].
Qed.
Print Assumptions C108_copies.

(** False: if the copying itself left the destination alone, and the attributes could be set back,
    then everything is as before. *)
Theorem C108_fails : forall E s a b t, WCopy E s a b = (t, false) -> e_junk E = None -> e_restore E = true -> forall m, shows t m = shows s m.
Proof.
  intros E s a b t H J R m. unfold WCopy in H. destruct (names s a) as [i|] eqn:Ea; [|injection H as <-; reflexivity]. destruct (negb (e_info_src E)); [injection H as <-; reflexivity|].
  destruct (match names s b with Some j => e_info_dest E && Nat.eqb i j | None => false end); [injection H as <-; reflexivity|].
  set (s1 := SetAtt (e_clear E) s b NORMAL) in *. destruct (CopyFileW E s1 a b) as [s2 r] eqn:C. injection H as <- ->.
  assert (Nm : forall m, names s1 m = names s m) by (intro x; apply set_names).
  assert (S2 : s2 = s1).
  { unfold CopyFileW in C. destruct (names s1 a) as [i'|]; [|injection C as <-; reflexivity]. destruct (names s1 b) as [j|].
    - destruct (Nat.eqb i' j || read_only (files s1 j)); [injection C as <-; reflexivity|]. destruct (e_copy E); [discriminate C|]. rewrite J in C. injection C as <-. reflexivity.
    - destruct (e_copy E); [discriminate C|]. rewrite J in C. injection C as <-. reflexivity. }
  subst s2. rewrite set_shows, !Nm. rewrite R. cbn [andb]. unfold shows. destruct (names s m) as [k|]; [|reflexivity]. cbn [option_map]. f_equal.
  unfold s1, SetAtt. destruct (names s b) as [j|] eqn:Eb; [|reflexivity]. cbn [option_map]. destruct (e_clear E); cbn [put_file files].
  - rewrite !Nat.eqb_refl. destruct (Nat.eqb_spec k j) as [-> |_]; [cbn [data]; apply wf_eta|reflexivity].
  - destruct (Nat.eqb_spec k j) as [-> |_]; [apply wf_eta|reflexivity].
Qed.
Print Assumptions C108_fails.

(** A file is not copied onto itself, under whatever names. *)
Theorem C108_itself : forall E s a b, names s a = names s b -> snd (WCopy E s a b) = false.
Proof.
  intros E s a b H. unfold WCopy. destruct (names s a) as [i|] eqn:Ea; [|reflexivity]. destruct (negb (e_info_src E)); [reflexivity|]. rewrite <- H. destruct (e_info_dest E && Nat.eqb i i); [reflexivity|].
  set (s1 := SetAtt (e_clear E) s b NORMAL). assert (C : CopyFileW E s1 a b = (s1, false)).
  { unfold CopyFileW, s1. rewrite !set_names, Ea, <- H, Nat.eqb_refl. reflexivity. }
  rewrite C. reflexivity.
Qed.
Print Assumptions C108_itself.

(** C109.  Move. *)

(** Whatever fails: true means that the destination has what the source had, false that the source
    still has it. *)
Theorem C109_never_lost : forall E s a b, unused s (e_new E) -> let '(t, r) := WMove E s a b in
  if r then exists f, shows s a = Some f /\ shows t b = Some f else option_map data (shows t a) = option_map data (shows s a).
Proof.
  intros E s a b U. unfold WMove. destruct (MoveFileW (e_move E) s a b) as [s1 r] eqn:M. unfold MoveFileW in M. destruct r.
  - destruct (names s a) as [i|] eqn:Ea; [|discriminate M]. exists (files s i). unfold shows at 1. rewrite Ea. split; [reflexivity|]. destruct (Nat.eqb_spec a b) as [<- |Nb].
    + injection M as <- _. unfold shows. rewrite Ea. reflexivity.
    + destruct (names s b); [discriminate M|]. destruct (e_move E); [|discriminate M]. injection M as <-. rewrite shows_name, Nat.eqb_refl. reflexivity.
  - assert (S1 : s1 = s).
    { destruct (names s a) as [i|]; [|injection M as <-; reflexivity]. destruct (Nat.eqb a b); [injection M as <- _; reflexivity|]. destruct (names s b); [injection M as <-; reflexivity|]. destruct (e_move E); [discriminate M|]. injection M as <-. reflexivity. }
    subst s1. destruct (WCopy E s a b) as [t r] eqn:C. destruct r.
    + destruct (C108_copies E s a b t C U) as (f & F1 & F2 & F3 & _). exists f. split; [exact F1|].
      assert (Nb : b <> a).
      { intros ->. pose proof (C108_itself E s a a eq_refl) as X. rewrite C in X. discriminate X. }
      unfold DeleteFileW. destruct (names t a) as [k|]; [|exact F2]. destruct (e_delete E && negb (read_only (files t k))); cbn [fst]; [|exact F2]. rewrite shows_name. destruct (Nat.eqb_spec b a); [contradiction|exact F2].
    + unfold WCopy in C. destruct (names s a) as [i|] eqn:Ea; [|injection C as <-; reflexivity]. destruct (negb (e_info_src E)); [injection C as <-; reflexivity|].
      destruct (match names s b with Some j => e_info_dest E && Nat.eqb i j | None => false end); [injection C as <-; reflexivity|].
      set (s1 := SetAtt (e_clear E) s b NORMAL) in *. destruct (CopyFileW E s1 a b) as [s2 r] eqn:C2. injection C as <- ->.
      assert (Nm : forall m, names s1 m = names s m) by (intro x; apply set_names).
      assert (D : forall ok x n m v, option_map data (shows (SetAtt ok x n v) m) = option_map data (shows x m)).
      { intros ok x n m v. rewrite set_shows. unfold shows. destruct (names x m) as [j|]; [|reflexivity]. cbn [option_map]. destruct (names x n) as [k|]; [|reflexivity]. destruct ok; cbn [andb]; [|reflexivity]. destruct (Nat.eqb_spec j k) as [-> |_]; reflexivity. }
      rewrite D. transitivity (option_map data (shows s1 a)); [|apply D]. unfold CopyFileW in C2. rewrite !Nm, Ea in C2. destruct (names s b) as [j|] eqn:Eb.
      * destruct (Nat.eqb_spec i j) as [X|X]; [injection C2 as <-; reflexivity|]. destruct (read_only (files s1 j)); [injection C2 as <-; reflexivity|]. cbn [orb] in C2. destruct (e_copy E); [discriminate C2|].
        destruct (e_junk E) as [d|]; injection C2 as <-; [|reflexivity]. rewrite shows_put. unfold shows. rewrite Nm, Ea. destruct (Nat.eqb_spec i j); [contradiction|reflexivity].
      * destruct (e_copy E); [discriminate C2|]. destruct (e_junk E) as [d|]; injection C2 as <-; [|reflexivity]. rewrite shows_put. cbn [put_name names files]. unfold shows. rewrite Nm.
        destruct (Nat.eqb_spec a b) as [-> |_]; [congruence|]. rewrite ?Nm, ?Ea. destruct (Nat.eqb_spec i (e_new E)) as [-> |_]; [exfalso; exact (U a Ea)|reflexivity].
Qed.
Print Assumptions C109_never_lost.

(** If the source is not read-only and deleting does not fail then after a successful Move its name
    is gone; two names of one file apart. *)
Theorem C109_gone : forall E s a b f, unused s (e_new E) -> a <> b -> shows s a = Some f -> read_only f = false -> e_delete E = true ->
  snd (WMove E s a b) = true -> shows (fst (WMove E s a b)) a = None.
Proof.
  intros E s a b f U Nb F R D. unfold WMove. destruct (MoveFileW (e_move E) s a b) as [s1 r] eqn:M. unfold MoveFileW in M. unfold shows in F. destruct (names s a) as [i|] eqn:Ea; [|discriminate F]. destruct (Nat.eqb_spec a b); [contradiction|]. destruct r.
  - intros _. destruct (names s b); [discriminate M|]. destruct (e_move E); [|discriminate M]. injection M as <-. cbn [fst]. rewrite !shows_name. destruct (Nat.eqb_spec a b); [contradiction|]. rewrite Nat.eqb_refl. reflexivity.
  - assert (S1 : s1 = s) by (destruct (names s b); [injection M as <-; reflexivity|]; destruct (e_move E); [discriminate M|]; injection M as <-; reflexivity).
    subst s1. destruct (WCopy E s a b) as [t r] eqn:C. destruct r; [|discriminate]. intros _.
    destruct (C108_copies E s a b t C U) as (f' & F1 & _ & F3 & _). cbn [fst]. unfold DeleteFileW. unfold shows in F3, F1. rewrite Ea in F1. destruct (names t a) as [k|]; [|discriminate F3]. injection F3 as F3. injection F1 as F1. injection F as F.
    rewrite F3, D, <- F1, F, R. cbn [andb negb fst]. rewrite shows_name, Nat.eqb_refl. reflexivity.
Qed.
Print Assumptions C109_gone.

(** A read-only file moved onto an existing one is copied, and stays; the answer is true. *)
Theorem C109_refuted : forall s a b f g, shows s a = Some f -> shows s b = Some g -> names s a <> names s b -> read_only f = true ->
  exists E, e_clear E = true /\ e_copy E = true /\ e_delete E = true /\ snd (WMove E s a b) = true /\ shows (fst (WMove E s a b)) a = Some f /\ shows (fst (WMove E s a b)) b = Some f.
Proof.
  intros s a b f g F G N R. exists (Env true true true true None true true true 0). repeat (split; [reflexivity|]). unfold shows in F, G. destruct (names s a) as [i|] eqn:Ea; [|discriminate F]. destruct (names s b) as [j|] eqn:Eb; [|discriminate G].
  injection F as F. injection G as G. assert (Ij : i <> j) by congruence. assert (Nb : a <> b) by congruence.
  assert (C : exists t, WMove (Env true true true true None true true true 0) s a b = (t, true) /\ shows t a = Some f /\ shows t b = Some f).
  { unfold WMove, MoveFileW. rewrite Ea, Eb. destruct (Nat.eqb_spec a b); [contradiction|]. unfold WCopy. rewrite Ea, Eb. cbn [e_info_src e_info_dest negb andb]. destruct (Nat.eqb_spec i j); [contradiction|].
    cbn [e_clear]. assert (X : SetAtt true s b NORMAL = put_file s j (Wf (data (files s j)) NORMAL)) by (unfold SetAtt; rewrite Eb; reflexivity). rewrite X. clear X.
    unfold CopyFileW. cbn [put_file names files]. rewrite Ea, Eb. destruct (Nat.eqb_spec i j); [contradiction|]. rewrite Nat.eqb_refl. unfold read_only at 1. cbn [att orb].
    change (N.testbit NORMAL 0) with false. cbn [e_copy e_restore e_delete]. unfold SetAtt. cbn [put_file names files]. rewrite Eb. rewrite Nat.eqb_refl. unfold DeleteFileW. cbn [put_file names files]. rewrite Ea.
    destruct (Nat.eqb_spec i j); [contradiction|]. rewrite F, R. cbn [andb negb fst]. eexists. split; [reflexivity|]. rewrite !shows_put. cbn [put_file names files]. rewrite Ea, Eb, Nat.eqb_refl. destruct (Nat.eqb_spec i j); [contradiction|].
    rewrite F, wf_eta. split; reflexivity. }
  destruct C as (t & C & T1 & T2). rewrite C. repeat split; assumption.
Qed.
Print Assumptions C109_refuted.

(** 0: a read-only file, 1: another, 2: nothing *)
Example C109_ex :
  let s := Vol (fun n => match n with O => Some 10%nat | S O => Some 11%nat | _ => None end) (fun i => if Nat.eqb i 10 then Wf [1; 2; 3] 33 else Wf [4] 32) in
  let E := Env true true true true None true true true 12 in
  let see t := (shows t 0, shows t 1, shows t 2) in
  (let '(t, r) := WMove E s 0 1 in (see t, r)) = (Some (Wf [1; 2; 3] 33), Some (Wf [1; 2; 3] 33), None, true) /\
  (let '(t, r) := WMove E s 0 2 in (see t, r)) = (None, Some (Wf [4] 32), Some (Wf [1; 2; 3] 33), true) /\
  (let '(t, r) := WMove E s 1 0 in (see t, r)) = (Some (Wf [4] 32), None, None, true).
Proof. repeat split; reflexivity. Qed.
Example C108_ex :
  let s := Vol (fun n => match n with O => Some 10%nat | S O => Some 11%nat | _ => None end) (fun i => if Nat.eqb i 10 then Wf [1; 2; 3] 33 else Wf [4] 35) in
  let see t := (shows t 0, shows t 1) in
  (let '(t, r) := WCopy (Env true true true true None true true true 12) s 0 1 in (see t, r)) = (Some (Wf [1; 2; 3] 33), Some (Wf [1; 2; 3] 33), true) /\
  (let '(t, r) := WCopy (Env true true true false None true true true 12) s 0 1 in (see t, r)) = (Some (Wf [1; 2; 3] 33), Some (Wf [4] 35), false).
Proof. repeat split; reflexivity. Qed.
Example C107_ex :
  let s := Vol (fun n => if Nat.eqb n 0 then Some 10%nat else None) (fun i => Wf [1; 2; 3] 33) in
  (let '(t, r) := WDelete (Env true true true true None true true true 12) s 0 in (shows t 0, r)) = (None, true) /\
  (let '(t, r) := WDelete (Env true true true true None true true false 12) s 0 in (shows t 0, r)) = (Some (Wf [1; 2; 3] 128), false).
Proof. repeat split; reflexivity. Qed.
