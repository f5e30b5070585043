(** Proofs about M_MacAppInfo. *)
From Verif Require Import Base S_AppInfo M_AppInfo P_AppInfo M_MacAppInfo.
Open Scope N_scope.

Definition text (m : mac) : Prop := (forall p, mac_path m = Some p -> ~ In 0 p) /\ (forall n f, mac_realpath m n = Some f -> ~ In 0 f).

(** The name realpath is asked for. *)
Definition asked (m : mac) (size : nat) (argv0 : option bytes) : option bytes :=
  match mac_path m with
  | Some (c :: p) => if (length (c :: p) <? Nat.min size 4096)%nat then Some (c :: p) else argv0
  | _ => argv0
  end.

Lemma wr_zero b t i : holds b t -> (length t <= i)%nat -> (i < length b)%nat -> exists b', wr b i 0 = Ok b' /\ holds b' t /\ length b' = length b.
Proof.
  intros (r & ->) Hi L. rewrite wr_split by exact L. eexists. split; [reflexivity|]. split.
  - rewrite firstn_app, (firstn_all2 t) by lia. rewrite <- app_assoc. unfold holds. destruct (i - length t)%nat as [|k]; cbn [firstn app]; eauto.
  - rewrite !app_length in *. cbn [length] in *. rewrite firstn_length, skipn_length, app_length. cbn [length]. lia.
Qed.
Lemma clear_holds c b : exists b0, clear (c :: b) = Ok b0 /\ holds b0 [] /\ length b0 = length (c :: b).
Proof. unfold clear. cbn [length Nat.eqb]. rewrite wr_split by (cbn [length]; lia). eexists. split; [reflexivity|]. split; [eexists; reflexivity|reflexivity]. Qed.

Lemma mac_ok m b argv0 : text m -> b <> [] ->
  exists b' a, MacExecutableFilename m b argv0 = Ok (b', a) /\ length b' = length b /\
    match a with
    | Some n => exists q f, asked m (length b) argv0 = Some q /\ mac_realpath m q = Some f /\ (length f < length b)%nat /\ n = S (length f) /\ holds b' f
    | None => forall q f, asked m (length b) argv0 = Some q -> mac_realpath m q = Some f -> (length b <= length f)%nat
    end.
Proof.
  intros [C1 C2] Hb. destruct b as [|c b]; [congruence|]. unfold MacExecutableFilename. cbv zeta. destruct (clear_holds c b) as (b0 & E0 & H0 & L0). rewrite E0. cbn [bind]. set (z2 := length (c :: b)) in *.
  assert (Z : (0 < z2)%nat) by (unfold z2; cbn [length]; lia).
  replace (if (MAXSIZE <? z2)%nat then MAXSIZE else z2) with (Nat.min z2 4096) by (unfold MAXSIZE; change (N.to_nat 4096) with 4096%nat; destruct (Nat.ltb_spec 4096 z2); lia).
  set (t := match mac_path m with Some p => if (length p <? Nat.min z2 4096)%nat then p else [] | None => [] end).
  assert (P : exists b1 k, proc_pidpath m b0 (Nat.min z2 4096) = Ok (b1, k) /\ holds b1 t /\ length b1 = z2).
  { unfold proc_pidpath, t. destruct (mac_path m) as [p|]; [|eauto]. destruct (Nat.ltb_spec (length p) (Nat.min z2 4096)) as [L|L]; [|eauto].
    destruct (strcpy_ok b0 p ltac:(lia)) as (b1 & E1 & H1 & L1 & _). unfold strcpy in E1. rewrite E1. cbn [bind]. exists b1, (length p). split; [reflexivity|]. split; [exact H1|congruence]. }
  destruct P as (b1 & k & E1 & H1 & L1). rewrite E1. cbn [bind]. clear E1 k.
  assert (T : ~ In 0 t) by (unfold t; destruct (mac_path m) as [p|] eqn:Ep; [destruct (_ <? _)%nat; [exact (C1 p eq_refl)|intros []]|intros []]).
  assert (Lt : (length t < z2)%nat) by (unfold t; destruct (mac_path m) as [p|]; [destruct (Nat.ltb_spec (length p) (Nat.min z2 4096))|]; cbn [length]; lia).
  rewrite (cstr_holds _ _ H1 T). cbn [bind]. destruct (Nat.eqb_spec z2 0) as [X|_]; [lia|].
  destruct (wr_zero b1 t (z2 - 1) H1 ltac:(lia) ltac:(lia)) as (b2 & E2 & H2 & L2). rewrite E2. cbn [bind].
  assert (Nm : exists b3, (if (0 <? length t)%nat then let* b3 := (if (length t <? z2)%nat then wr b2 (length t) 0 else Ok b2) in let* s := cstr b3 in Ok (b3, mac_realpath m s)
     else match argv0 with None => Ok (b2, None) | Some a => Ok (b2, mac_realpath m a) end) = Ok (b3, match asked m z2 argv0 with Some q => mac_realpath m q | None => None end) /\ length b3 = z2).
  { assert (A : asked m z2 argv0 = match t with [] => argv0 | _ => Some t end).
    { unfold asked, t. destruct (mac_path m) as [[|x p]|]; [destruct (_ <? _)%nat; reflexivity| |reflexivity]. destruct (_ <? _)%nat; reflexivity. }
    rewrite A. destruct t as [|x t]; cbn [length].
    - change (0 <? 0)%nat with false. cbn iota. exists b2. split; [destruct argv0; reflexivity|rewrite L2; exact L1].
    - change (0 <? S (length t))%nat with true. cbn iota. change (S (length t)) with (length (x :: t)). rewrite (proj2 (Nat.ltb_lt _ _) Lt).
      destruct (wr_zero b2 (x :: t) (length (x :: t)) H2 ltac:(lia) ltac:(lia)) as (b3 & E3 & H3 & L3). rewrite E3. cbn [bind]. rewrite (cstr_holds _ _ H3 T). cbn [bind]. exists b3. split; [reflexivity|congruence]. }
  destruct Nm as (b3 & E3 & L3). unfold answer, bytes in *. rewrite E3. cbn [bind]. destruct (asked m z2 argv0) as [q|] eqn:Eq.
  - destruct (mac_realpath m q) as [f|] eqn:Ef.
    + destruct (Nat.leb_spec z2 (length f)) as [L|L].
      * do 2 eexists. split; [reflexivity|]. split; [exact L3|]. intros q' f' X Y. inversion X; subst q'. congruence.
      * destruct (strcpy_ok b3 f) as (b4 & E4 & H4 & L4 & _); [lia|]. rewrite E4. cbn [bind]. rewrite (cstr_holds _ _ H4) by eauto. cbn [bind]. do 2 eexists. split; [reflexivity|]. split; [congruence|]. exists q, f. auto.
    + do 2 eexists. split; [reflexivity|]. split; [exact L3|]. intros q' f' X Y. inversion X; subst q'. congruence.
  - do 2 eexists. split; [reflexivity|]. split; [exact L3|]. intros q' f' X Y. discriminate.
Qed.
