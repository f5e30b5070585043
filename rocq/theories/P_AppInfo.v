(** Proofs about the directory helpers. *)
From Verif Require Import Base M_AppInfo S_AppInfo.
Open Scope N_scope.

(** The first [z] bytes of the buffer are what fits of [full]. *)
Definition hold (b : bytes) (z : nat) (full : bytes) : Prop :=
  z = Nat.min (length b) (length full) /\ firstn z b = firstn (length b) full.

Lemma last_nth (l : bytes) d : last l d = nth (length l - 1) l d.
Proof.
  induction l as [|x l IH]; auto. destruct l as [|y l]; auto.
  change (last (x :: y :: l) d) with (last (y :: l) d). rewrite IH. cbn [length].
  replace (S (S (length l)) - 1)%nat with (S (S (length l) - 1)) by lia. reflexivity.
Qed.

Lemma nth_firstn (l : bytes) n i d : (i < n)%nat -> nth i (firstn n l) d = nth i l d.
Proof.
  revert n i; induction l as [|x l IH]; intros n i H; [now rewrite firstn_nil|].
  destruct n as [|n]; [lia|]. destruct i as [|i]; cbn; auto. apply IH. lia.
Qed.

Lemma hold_put b z full c : hold b z full -> (z < length b)%nat ->
  exists b', wr b z c = Ok b' /\ hold b' (S z) (full ++ [c]) /\ length b' = length b.
Proof.
  intros [Hz Hf] L. rewrite wr_split by auto. eexists. split; [reflexivity|].
  assert (LL : length (firstn z b ++ c :: skipn (S z) b) = length b).
  { rewrite app_length. cbn [length]. rewrite firstn_length, skipn_length. lia. }
  split; auto. unfold hold. rewrite LL, app_length. cbn [length]. split; [lia|].
  rewrite (firstn_all2 full) in Hf by lia.
  rewrite firstn_app, firstn_firstn, firstn_length. replace (Nat.min (S z) z) with z by lia.
  replace (S z - Nat.min z (length b))%nat with 1%nat by lia. cbn [firstn].
  rewrite Hf. rewrite firstn_all2; auto. rewrite app_length. cbn. lia.
Qed.

(** Full buffers stay as they are. *)
Lemma hold_full b z full more : hold b z full -> (length b <= z)%nat -> hold b z (full ++ more).
Proof.
  intros [Hz Hf] L. split; [rewrite app_length; lia|]. rewrite Hf, firstn_app.
  replace (length b - length full)%nat with 0%nat by lia. cbn. now rewrite app_nil_r.
Qed.

Lemma put_slash_ok b z full : hold b z full -> full <> [] ->
  exists b' z', put_slash b z = Ok (b', z') /\ hold b' z' (with_slash full) /\ length b' = length b.
Proof.
  intros H Hn. unfold put_slash, with_slash. destruct (Nat.ltb_spec z (length b)) as [L|L].
  - pose proof H as [Hz Hf]. assert (Lf : (1 <= length full)%nat) by (destruct full; [congruence|cbn; lia]).
    destruct z as [|k]; [lia|]. rewrite (rd_in b k 0) by lia. cbn [bind].
    assert (E : nth k b 0 = last full 0).
    { rewrite (firstn_all2 full) in Hf by lia. rewrite last_nth.
      replace (length full - 1)%nat with k by lia. rewrite <- Hf. symmetry. apply nth_firstn. lia. }
    rewrite E. destruct (last full 0 =? 47).
    + do 2 eexists. split; [reflexivity|]. auto.
    + destruct (hold_put b (S k) full 47 H L) as (b' & Eb & Hb & Lb). rewrite Eb. cbn [bind]. eauto.
  - do 2 eexists. split; [reflexivity|]. split; auto.
    destruct (last full 0 =? 47); auto. apply hold_full; auto.
Qed.

Lemma put_str_ok s : forall b z full, hold b z full ->
  exists b' z', put_str b z s = Ok (b', z') /\ hold b' z' (full ++ s) /\ length b' = length b.
Proof.
  induction s as [|c s IH]; intros b z full H; cbn [put_str].
  - rewrite app_nil_r. eauto.
  - destruct (Nat.ltb_spec z (length b)) as [L|L].
    + destruct (hold_put b z full c H L) as (b1 & E1 & H1 & L1). rewrite E1. cbn [bind].
      destruct (IH b1 (S z) _ H1) as (b2 & z2 & E2 & H2 & L2).
      exists b2, z2. split; [auto|]. rewrite <- app_assoc in H2. split; auto. congruence.
    + do 2 eexists. split; [reflexivity|]. split; auto. apply hold_full; auto.
Qed.

Lemma with_slash_nonempty t : t <> [] -> with_slash t <> [].
Proof. unfold with_slash. destruct (last t 0 =? 47); auto. destruct t; cbn; congruence. Qed.

(** What every helper returns, for the text it should deliver. *)
Definition delivered (size : nat) (r : res answer) (t : bytes) : Prop :=
  exists b' a, r = Ok (b', a) /\ length b' = size /\
    (if (length t + 2 <=? size)%nat then a = Some (S (length t)) /\ holds b' t else a = None).

Lemma finish b z full : hold b z full ->
  delivered (length b) (let* (b5, z5) := (if (z <? length b)%nat then let* b5 := wr b z 0 in Ok (b5, S z) else Ok (b, z)) in
    if (z5 =? length b5)%nat then Ok (b5, None) else Ok (b5, Some z5)) full.
Proof.
  intros H. unfold delivered. destruct (Nat.ltb_spec z (length b)) as [L|L].
  - destruct (hold_put b z full 0 H L) as (b1 & E1 & H1 & L1). rewrite E1. cbn [bind].
    destruct H as [Hz _]. destruct H1 as [Hz1 Hf1]. rewrite app_length in Hz1. cbn [length] in Hz1.
    destruct (Nat.eqb_spec (S z) (length b1)) as [E|E]; do 2 eexists; (split; [reflexivity|]); (split; [auto|]).
    + now rewrite (proj2 (Nat.leb_gt _ _)) by lia.
    + rewrite (proj2 (Nat.leb_le _ _)) by lia. split; [f_equal; lia|].
      exists (skipn (S z) b1). rewrite <- (firstn_skipn (S z) b1) at 1. rewrite Hf1.
      rewrite firstn_all2 by (rewrite app_length; cbn [length]; lia). now rewrite <- app_assoc.
  - cbn [bind]. destruct H as [Hz _]. replace (z =? length b)%nat with true by (symmetry; apply Nat.eqb_eq; lia).
    do 2 eexists. split; [reflexivity|]. split; auto. now rewrite (proj2 (Nat.leb_gt _ _)) by lia.
Qed.

Lemma Nix_ok b z base prefix app : hold b z base -> base <> [] ->
  delivered (length b) (GetNIXStorageDir b prefix app z) (storage base (match prefix with Some p => p | None => [] end) app).
Proof.
  intros H Hn. unfold GetNIXStorageDir, storage.
  destruct (put_slash_ok b z base H Hn) as (b1 & z1 & E1 & H1 & L1). rewrite E1. cbn [bind].
  destruct app as [a|].
  - assert (P : exists b2 z2, (match prefix with None => Ok (b1, z1) | Some p => put_str b1 z1 p end) = Ok (b2, z2) /\
       hold b2 z2 (with_slash base ++ match prefix with Some p => p | None => [] end) /\ length b2 = length b).
    { destruct prefix as [p|].
      - destruct (put_str_ok p b1 z1 _ H1) as (b2 & z2 & E2 & H2 & L2). exists b2, z2. split; auto. split; auto. congruence.
      - exists b1, z1. rewrite app_nil_r. auto. }
    destruct P as (b2 & z2 & E2 & H2 & L2). rewrite E2. cbn [bind].
    destruct (put_str_ok a b2 z2 _ H2) as (b3 & z3 & E3 & H3 & L3). rewrite E3. cbn [bind].
    rewrite <- app_assoc in H3.
    destruct (put_slash_ok b3 z3 _ H3) as (b4 & z4 & E4 & H4 & L4).
    { pose proof (with_slash_nonempty base Hn). destruct (with_slash base); cbn; congruence. }
    rewrite E4. cbn [bind]. replace (length b) with (length b4) by congruence. apply finish. exact H4.
  - cbn [bind]. rewrite <- L1. apply finish. exact H1.
Qed.

Lemma clear_ok b : exists b0, clear b = Ok b0 /\ length b0 = length b.
Proof.
  unfold clear. destruct (Nat.eqb_spec (length b) 0) as [E|E]; [eauto|]. rewrite wr_in by lia.
  eexists. split; [reflexivity|]. apply upd_length.
Qed.

Lemma strcpy_ok b s : (length s < length b)%nat ->
  exists b1, strcpy b s = Ok b1 /\ holds b1 s /\ length b1 = length b /\ hold b1 (length s) s.
Proof.
  intros L. unfold strcpy. rewrite blit_in by (rewrite app_length; cbn [length]; lia). cbn [firstn app].
  eexists. split; [reflexivity|].
  assert (LL : length ((s ++ [0]) ++ skipn (0 + length (s ++ [0])) b) = length b).
  { repeat rewrite ?app_length, ?skipn_length. cbn [length]. lia. }
  split; [rewrite <- app_assoc; eexists; reflexivity|]. split; auto. unfold hold. rewrite LL. split; [lia|].
  rewrite <- app_assoc. rewrite firstn_app, Nat.sub_diag, firstn_all. cbn [firstn]. rewrite app_nil_r.
  now rewrite firstn_all2 by lia.
Qed.

Lemma strcpy_over b s : (length b <= length s)%nat -> strcpy b s = UB.
Proof.
  intros L. unfold strcpy, blit. rewrite app_length. cbn [length]. now rewrite (proj2 (Nat.leb_gt _ _)) by lia.
Qed.

Lemma cstr_holds b t : holds b t -> ~ In 0 t -> cstr b = Ok t.
Proof.
  intros (r & ->). induction t as [|c t IH]; intros N; auto. cbn [app cstr].
  destruct (N.eqb_spec c 0) as [->|]; [exfalso; apply N; cbn; auto|].
  rewrite IH; auto. intros X. apply N. cbn. auto.
Qed.

Lemma storage_long base prefix app : (length base <= length (storage base prefix app))%nat.
Proof.
  assert (W : forall t, (length t <= length (with_slash t))%nat).
  { intros t. unfold with_slash. destruct (last t 0 =? 47); auto. rewrite app_length. lia. }
  unfold storage. destruct app as [a|]; auto.
  etransitivity; [|apply W]. rewrite app_length. pose proof (W base). lia.
Qed.

(** Too small for even the base. *)
Lemma too_small size (b : bytes) t : length b = size -> (size < length t + 2)%nat -> delivered size (Ok (b, None)) t.
Proof.
  intros L S. do 2 eexists. split; [reflexivity|]. split; auto. now rewrite (proj2 (Nat.leb_gt _ _)) by lia.
Qed.

Lemma System_ok b app : delivered (length b) (GetSystemAppStorageDir b app) (storage [47;118;97;114;47;108;105;98;47] [] app).
Proof.
  unfold GetSystemAppStorageDir. destruct (clear_ok b) as (b0 & E0 & L0). rewrite E0. cbn [bind].
  pose proof (storage_long [47;118;97;114;47;108;105;98;47] [] app) as SL. cbn [length] in SL.
  destruct (Nat.ltb_spec (length b) 10) as [L|L].
  - apply too_small; auto. lia.
  - destruct (strcpy_ok b0 [47;118;97;114;47;108;105;98;47]) as (b1 & E1 & H1 & L1 & K1); [cbn [length]; lia|].
    rewrite E1. cbn [bind]. rewrite (cstr_holds _ _ H1) by (cbn; lia). cbn [bind].
    replace (length b) with (length b1) by congruence. apply (Nix_ok b1 _ _ None app K1). discriminate.
Qed.

Lemma Temp_ok b : length b <> 5%nat -> delivered (length b) (GetTempStorageDir b) [47;116;109;112;47].
Proof.
  intros N. unfold GetTempStorageDir. destruct (clear_ok b) as (b0 & E0 & L0). rewrite E0. cbn [bind].
  destruct (Nat.ltb_spec (length b) 5) as [L|L].
  - apply too_small; auto. cbn [length]. lia.
  - destruct (strcpy_ok b0 [47;116;109;112;47]) as (b1 & E1 & H1 & L1 & K1); [cbn [length]; lia|].
    rewrite E1. cbn [bind]. replace (length b) with (length b1) by congruence.
    apply (Nix_ok b1 _ _ None None K1). discriminate.
Qed.

Lemma User_ok e b app h : home e = Some h -> h <> [] -> length b <> length h ->
  delivered (length b) (GetCurrentUserAppStorageDir e b app) (storage h [46] app).
Proof.
  intros Eh Hn N. unfold GetCurrentUserAppStorageDir. destruct (clear_ok b) as (b0 & E0 & L0). rewrite E0, Eh. cbn [bind].
  pose proof (storage_long h [46] app) as SL.
  destruct (Nat.ltb_spec (length b) (length h)) as [L|L].
  - apply too_small; auto. lia.
  - destruct (strcpy_ok b0 h) as (b1 & E1 & H1 & L1 & K1); [lia|].
    rewrite E1. cbn [bind]. replace (length b) with (length b1) by congruence.
    apply (Nix_ok b1 _ _ (Some [46]) app K1). auto.
Qed.

(** ** The executable's name *)
Lemma readlink_ok b l : exists b1 z, readlink b l = Ok (b1, z) /\ length b1 = length b /\
  match z with
  | Some n => exists c, l = Some c /\ n = Nat.min (length b) (length c) /\ firstn n b1 = firstn (length b) c /\ b <> []
  | None => l = None \/ b = []
  end.
Proof.
  unfold readlink. destruct l as [c|]; [|do 2 eexists; split; [reflexivity|]; auto].
  destruct (Nat.eqb_spec (length b) 0) as [E|E].
  - do 2 eexists. split; [reflexivity|]. split; auto. right. now apply length_zero_iff_nil.
  - rewrite blit_in by (rewrite firstn_length; lia). cbn [bind firstn app]. do 2 eexists. split; [reflexivity|].
    split; [rewrite app_length, skipn_length, firstn_length; lia|].
    exists c. split; auto. rewrite firstn_length. split; [lia|]. split.
    + rewrite firstn_app. rewrite firstn_length, Nat.sub_diag. cbn [firstn]. rewrite app_nil_r, firstn_firstn.
      destruct (Nat.le_gt_cases (length b) (length c)) as [G|G]; [f_equal; lia|]. rewrite !firstn_all2 by lia. reflexivity.
    + intros ->. cbn in E. lia.
Qed.

(** The first link that can be read. *)
Fixpoint readable (ls : list (option bytes)) : option bytes :=
  match ls with [] => None | Some c :: _ => Some c | None :: r => readable r end.

Lemma first_link_ok ls : forall b, exists b1 z, first_link b ls = Ok (b1, z) /\ length b1 = length b /\
  match z with
  | Some n => exists c, readable ls = Some c /\ n = Nat.min (length b) (length c) /\ firstn n b1 = firstn (length b) c /\ b <> []
  | None => readable ls = None \/ b = []
  end.
Proof.
  induction ls as [|l ls IH]; intros b; cbn [first_link readable].
  - do 2 eexists. split; [reflexivity|]. auto.
  - destruct (readlink_ok b l) as (b1 & z & E & L & H). rewrite E. cbn [bind]. destruct z as [n|].
    + do 2 eexists. split; [reflexivity|]. split; auto. destruct H as (c & -> & H). exists c. auto.
    + destruct (IH b1) as (b2 & z & E2 & L2 & H2). exists b2, z. split; auto. split; [congruence|].
      destruct H as [->| ->].
      * rewrite L in H2. destruct z.
        -- destruct H2 as (c & H2). exists c. destruct H2 as (H2 & H3 & H4 & H5). repeat split; auto.
           intros ->. destruct b1; [congruence|discriminate].
        -- destruct H2 as [H2|H2]; auto. right. subst b1. destruct b; auto. discriminate.
      * assert (b1 = []) by (destruct b1; [auto|discriminate]). subst b1. destruct z as [n|]; auto.
        destruct H2 as (c & _ & _ & _ & X). congruence.
Qed.

(** The name that realpath is asked for. *)
Definition query (e : env) (size : nat) (argv0 : option bytes) : option bytes :=
  match size, readable (links e) with
  | S k, Some (c :: t) => Some (firstn k (c :: t))
  | _, _ => argv0
  end.

Definition clean (e : env) : Prop :=
  (forall c, In (Some c) (links e) -> ~ In 0 c) /\ (forall n f, realpath e n = Some f -> ~ In 0 f).

Lemma readable_in ls c : readable ls = Some c -> In (Some c) ls.
Proof. induction ls as [|[x|] ls IH]; cbn; intros E; [discriminate|left; exact E|right; auto]. Qed.

Lemma Exe_ok e b argv0 : clean e ->
  exists b' a, GetExecutableFilename e b argv0 = Ok (b', a) /\ length b' = length b /\
    match a with
    | Some n => exists q f, query e (length b) argv0 = Some q /\ realpath e q = Some f /\ (length f < length b)%nat /\
        n = S (length f) /\ holds b' f
    | None => forall q f, query e (length b) argv0 = Some q -> realpath e q = Some f -> (length b <= length f)%nat
    end.
Proof.
  intros [C1 C2]. unfold GetExecutableFilename. destruct (clear_ok b) as (b0 & E0 & L0). rewrite E0. cbn [bind].
  destruct (first_link_ok (links e) b0) as (b1 & z & E1 & L1 & H1). rewrite E1. cbn [bind].
  assert (E2 : exists b2, (if (length b =? 0)%nat then Ok b1 else wr b1 (length b - 1) 0) = Ok b2 /\ length b2 = length b /\
     (length b <> 0%nat -> b2 = firstn (length b - 1) b1 ++ [0])).
  { destruct (Nat.eqb_spec (length b) 0) as [E|E].
    - exists b1. split; auto. split; [congruence|]. intros; lia.
    - rewrite wr_split by lia. eexists. split; [reflexivity|].
      rewrite skipn_all2 by lia. split; [rewrite app_length, firstn_length; cbn [length]; lia|]. auto. }
  destruct E2 as (b2 & E2 & L2 & S2). rewrite E2. cbn [bind].
  assert (NAME : exists b3, (let* (b3, name) :=
    match z with
    | Some (S n) =>
        let* b3 := (if (S n <? length b)%nat then wr b2 (S n) 0 else Ok b2) in
        let* s := cstr b3 in Ok (b3, realpath e s)
    | _ => match argv0 with None => Ok (b2, None) | Some a => Ok (b2, realpath e a) end
    end in Ok (b3, name)) = Ok (b3, match query e (length b) argv0 with Some q => realpath e q | None => None end)
      /\ length b3 = length b).
  { destruct z as [n|].
    - destruct H1 as (c & Hc & Hn & Hf & Hb). rewrite L0 in *. assert (LB : length b <> 0%nat).
      { intros X. apply Hb. apply length_zero_iff_nil. lia. }
      unfold query. rewrite Hc. destruct (length b) as [|k] eqn:Eb; [congruence|].
      destruct c as [|x c].
      + cbn [length] in Hn. rewrite Nat.min_0_r in Hn. subst n. exists b2. destruct argv0; auto.
      + destruct n as [|n]; [cbn [length] in Hn; lia|].
        assert (N0 : ~ In 0 (x :: c)) by (apply C1; now apply readable_in).
        set (cc := x :: c) in *. specialize (S2 LB). replace (S k - 1)%nat with k in S2 by lia.
        assert (HH : exists b3, (if (S n <? S k)%nat then wr b2 (S n) 0 else Ok b2) = Ok b3 /\ length b3 = S k /\ holds b3 (firstn k cc)).
        { destruct (Nat.ltb_spec (S n) (S k)) as [L|L].
          - rewrite wr_split by lia. eexists. split; [reflexivity|].
            split; [rewrite app_length; cbn [length]; rewrite firstn_length, skipn_length; lia|].
            exists (skipn (S (S n)) b2). f_equal. rewrite S2. rewrite firstn_app. rewrite firstn_firstn.
            rewrite firstn_length. replace (S n - Nat.min k (length b1))%nat with 0%nat by lia. cbn [firstn]. rewrite app_nil_r.
            replace (Nat.min (S n) k) with (S n) by lia. rewrite Hf. rewrite !firstn_all2 by lia. reflexivity.
          - exists b2. split; auto. split; auto. exists []. rewrite S2. f_equal.
            replace (firstn k b1) with (firstn k (firstn (S n) b1)) by (rewrite firstn_firstn; f_equal; lia).
            rewrite Hf, firstn_firstn. f_equal. lia. }
        destruct HH as (b3 & E3 & L3 & H3). rewrite E3. cbn [bind].
        rewrite (cstr_holds _ _ H3). 2:{ intros X. apply N0. rewrite <- (firstn_skipn k cc). apply in_or_app. auto. }
        cbn [bind]. exists b3. auto.
    - unfold query. exists b2. split; auto. destruct H1 as [H1|H1].
      + rewrite H1. destruct (length b); destruct argv0; auto.
      + subst b0. rewrite <- L0. cbn [length]. destruct argv0; auto. }
  destruct NAME as (b3 & E3 & L3).
  match type of E3 with bind ?m _ = _ => destruct m as [[b3' nm]| |]; try discriminate E3 end.
  cbn [bind] in *. inversion E3; subst b3' nm. clear E3.
  destruct (query e (length b) argv0) as [q|] eqn:Eq.
  - destruct (realpath e q) as [f|] eqn:Ef.
    + destruct (Nat.leb_spec (length b) (length f)) as [L|L].
      * do 2 eexists. split; [reflexivity|]. split; auto. intros q' f' X Y. inversion X; subst q'. congruence.
      * destruct (strcpy_ok b3 f) as (b4 & E4 & H4 & L4 & _); [lia|]. rewrite E4. cbn [bind].
        rewrite (cstr_holds _ _ H4) by eauto. cbn [bind]. do 2 eexists. split; [reflexivity|]. split; [congruence|].
        exists q, f. auto.
    + do 2 eexists. split; [reflexivity|]. split; auto. intros q' f' X Y. inversion X; subst q'. congruence.
  - do 2 eexists. split; [reflexivity|]. split; auto. intros q' f' X Y. discriminate.
Qed.

Definition sepb (c : N) : bool := ((c =? 47) || (c =? 92))%bool.
Lemma sepb_iff c : sepb c = true <-> separator c.
Proof. unfold sepb, separator. rewrite orb_true_iff, !N.eqb_eq. tauto. Qed.

Lemma back_ok b : forall n, (n <= length b)%nat -> exists k, back b n = Ok k /\ (k <= n)%nat /\
  (forall i, (k <= i)%nat -> (i < n)%nat -> sepb (nth i b 0) = false) /\ (k = 0%nat \/ sepb (nth (k - 1) b 0) = true).
Proof.
  induction n as [|n IH]; intros L; cbn [back].
  - exists 0%nat. split; auto. split; auto. split; auto. intros; lia.
  - rewrite (rd_in b n 0) by lia. cbn [bind]. change ((nth n b 0 =? 47) || (nth n b 0 =? 92))%bool with (sepb (nth n b 0)).
    destruct (sepb (nth n b 0)) eqn:E.
    + exists (S n). split; auto. split; auto. split; [intros; lia|]. right. now replace (S n - 1)%nat with n by lia.
    + destruct (IH ltac:(lia)) as (k & Ek & Lk & H1 & H2). exists k. split; auto. split; auto. split; auto.
      intros i K1 K2. destruct (Nat.eq_dec i n) as [->|]; auto. apply H1; lia.
Qed.

Lemma ExePath_ok e b argv0 : clean e ->
  exists b' a, GetExecutablePath e b argv0 = Ok (b', a) /\ length b' = length b /\
    match a with
    | Some n => exists q f d, query e (length b) argv0 = Some q /\ realpath e q = Some f /\
        directory f d /\ n = S (length d) /\ holds b' d
    | None => forall q f, query e (length b) argv0 = Some q -> realpath e q = Some f -> (length b <= length f)%nat
    end.
Proof.
  intros C. unfold GetExecutablePath. destruct (Exe_ok e b argv0 C) as (b1 & a & E1 & L1 & H1). rewrite E1. cbn [bind].
  destruct a as [n|]; [|do 2 eexists; split; [reflexivity|]; auto].
  destruct H1 as (q & f & Hq & Hf & Lf & -> & (rest & Hb)).
  assert (N0 : ~ In 0 f) by (apply (proj2 C) with q; auto).
  assert (Lb : length b1 = (length f + S (length rest))%nat) by (rewrite Hb, app_length; cbn [length]; lia).
  destruct (back_ok b1 (S (length f)) ltac:(lia)) as (k & Ek & Lk & K1 & K2). rewrite Ek. cbn [bind].
  assert (Nf : forall i, (i < length f)%nat -> nth i b1 0 = nth i f 0) by (intros i Hi; rewrite Hb; now apply app_nth1).
  assert (Lk2 : (k <= length f)%nat).
  { destruct K2 as [K2|K2]; [lia|]. destruct (Nat.eq_dec k (S (length f))) as [->|]; [|lia].
    replace (S (length f) - 1)%nat with (length f) in K2 by lia. rewrite Hb, app_nth2, Nat.sub_diag in K2 by lia. discriminate. }
  rewrite wr_split by lia. cbn [bind]. do 2 eexists. split; [reflexivity|].
  split; [rewrite app_length; cbn [length]; rewrite firstn_length, skipn_length; lia|].
  exists q, f, (firstn k f). split; auto. split; auto. split; [|split].
  - exists (skipn k f). split; [symmetry; apply firstn_skipn|]. split.
    + intros c Hc HS. apply sepb_iff in HS. apply (In_nth _ _ 0) in Hc as (i & Hi & Ec). rewrite skipn_length in Hi.
      assert (X : nth i (skipn k f) 0 = nth (k + i) f 0).
      { rewrite <- (firstn_skipn k f) at 2. rewrite app_nth2; rewrite firstn_length; [|lia]. f_equal. lia. }
      rewrite X in Ec. rewrite <- Nf in Ec by lia. rewrite <- Ec in HS. rewrite K1 in HS by lia. discriminate.
    + destruct K2 as [->|K2]; [auto|]. destruct (Nat.eq_dec k 0) as [->|NK]; [auto|]. right. apply sepb_iff.
      rewrite last_nth, firstn_length. replace (Nat.min k (length f) - 1)%nat with (k - 1)%nat by lia.
      rewrite nth_firstn by lia. rewrite <- Nf by lia. exact K2.
  - rewrite firstn_length. lia.
  - exists (skipn (S k) b1). f_equal. rewrite Hb. rewrite firstn_app. replace (k - length f)%nat with 0%nat by lia.
    cbn [firstn]. now rewrite app_nil_r.
Qed.
