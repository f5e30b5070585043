(** C151: GetExecutableFilename on Apple systems. *)
From Verif Require Import Base S_AppInfo M_AppInfo M_MacAppInfo P_AppInfo P_MacAppInfo.
Open Scope N_scope.

(** What the buffer and the result are to be when the executable's resolved name is [f]. *)
Definition gives (b : bytes) (r : res answer) (f : option bytes) : Prop :=
  exists b' a, r = Ok (b', a) /\ length b' = length b /\
    match f with
    | Some f => if (length f <? length b)%nat then a = Some (S (length f)) /\ holds b' f else a = None
    | None => a = None
    end.

Lemma ok_gives m b argv0 : text m -> b <> [] ->
  gives b (MacExecutableFilename m b argv0) (match asked m (length b) argv0 with Some q => mac_realpath m q | None => None end).
Proof.
  intros C Hb. destruct (mac_ok m b argv0 C Hb) as (b' & a & E & L & H). exists b', a. split; [exact E|]. split; [exact L|].
  destruct (asked m (length b) argv0) as [q|].
  - destruct (mac_realpath m q) as [f|] eqn:Ef.
    + destruct (Nat.ltb_spec (length f) (length b)) as [Lf|Lf].
      * destruct a as [n|]; [|pose proof (H q f eq_refl Ef); lia]. destruct H as (q' & f' & X & Y & _ & -> & Hh). inversion X; subst q'. assert (f' = f) by congruence. subst f'. auto.
      * destruct a as [n|]; [|reflexivity]. destruct H as (q' & f' & X & Y & Z & _). inversion X; subst q'. assert (f' = f) by congruence. subst f'. lia.
    + destruct a as [n|]; [|reflexivity]. destruct H as (q' & f' & X & Y & _). inversion X; subst q'. congruence.
  - destruct a as [n|]; [|reflexivity]. destruct H as (q' & f' & X & _). discriminate.
Qed.

(** If the path of the executable fits into the buffer (and into 4096 bytes), the call delivers that
    path resolved, or false if that does not fit or cannot be had, whatever Argv0 is; it reads and
    writes within the buffer. *)
Theorem C151_executable : forall m b argv0 p, text m -> mac_path m = Some p -> p <> [] -> (length p < length b)%nat -> (length p < 4096)%nat ->
  gives b (MacExecutableFilename m b argv0) (mac_realpath m p).
Proof.
  intros m b argv0 p C Ep Hp L1 L2. assert (Hb : b <> []) by (intros ->; cbn in L1; lia). pose proof (ok_gives m b argv0 C Hb) as G. unfold asked in G. rewrite Ep in G.
  destruct p as [|x p]; [congruence|]. rewrite (proj2 (Nat.ltb_lt (length (x :: p)) (Nat.min (length b) 4096))) in G by lia. exact G.
Qed.

(** Whatever the path, a buffer of at least one byte is not left. *)
Theorem C151_inside : forall m b argv0, text m -> b <> [] -> exists b' a, MacExecutableFilename m b argv0 = Ok (b', a) /\ length b' = length b.
Proof. intros m b argv0 C Hb. destruct (mac_ok m b argv0 C Hb) as (b' & a & E & L & _). eauto. Qed.

(** A BufferSize of 0 is not safe here: the length of the buffer's text is asked for, always. *)
Theorem C151_empty_refuted : forall m argv0, MacExecutableFilename m [] argv0 = UB.
Proof. intros m argv0. unfold MacExecutableFilename, proc_pidpath. cbn. destruct (mac_path m) as [p|]; reflexivity. Qed.

(** If the path does not fit, the call does not fail for that: it takes Argv0 for the executable,
    seen from the current directory, though the caller of a program may choose Argv0 freely. *)
Theorem C151_argv0_refuted : forall m b p a, text m -> mac_path m = Some p -> b <> [] -> (length b <= length p \/ 4096 <= length p)%nat ->
  gives b (MacExecutableFilename m b (Some a)) (mac_realpath m a).
Proof.
  intros m b p a C Ep Hb L. pose proof (ok_gives m b (Some a) C Hb) as G. unfold asked in G. rewrite Ep in G. destruct p as [|x p]; [exact G|].
  rewrite (proj2 (Nat.ltb_ge (length (x :: p)) (Nat.min (length b) 4096))) in G by lia. exact G.
Qed.

(** So another file's name is returned with true. *)
Theorem C151_wrong_refuted : exists m b a p f g b', text m /\ mac_path m = Some p /\ mac_realpath m p = Some f /\ f <> g /\
  MacExecutableFilename m b (Some a) = Ok (b', Some (S (length g))) /\ holds b' g.
Proof.
  exists (Mac (Some [47;98;105;110;47;108;115]) (fun n => match n with [120] => Some [47;104;47;120] | _ => if existsb (N.eqb 0) n then None else Some n end)), (repeat 9 7), [120], [47;98;105;110;47;108;115], [47;98;105;110;47;108;115], [47;104;47;120], [47;104;47;120;0;9;0].
  split; [split|].
  - intros p X. injection X as <-. cbn. intuition discriminate.
  - intros n f X I. assert (G : (if existsb (N.eqb 0) n then None else Some n) = Some f -> False).
    { destruct (existsb (N.eqb 0) n) eqn:Q; intro Y; inversion Y; subst f. assert (existsb (N.eqb 0) n = true) by (apply existsb_exists; exists 0; auto). congruence. }
    cbn [mac_realpath] in X. destruct (list_eq_dec N.eq_dec n [120]) as [->|Ne]; [injection X as <-; cbn in I; intuition discriminate|]. apply G. rewrite <- X. clear G X I.
    destruct n as [|x n]; [reflexivity|]. destruct n as [|y n]; [|destruct x as [|x]; [reflexivity|do 7 (destruct x as [x|x|]; try reflexivity)]].
    destruct x as [|x]; [reflexivity|]. do 7 (destruct x as [x|x|]; try reflexivity). congruence.
  - split; [reflexivity|]. split; [reflexivity|]. split; [discriminate|]. split; [reflexivity|]. exists [9; 0]. reflexivity.
Qed.

(** The executable is /bin/ls; called with "x" as Argv0 in the directory /h, and buffers of 10, 7 and
    4 bytes: the second and the third time the answer would be /h/x, which the last buffer cannot hold. *)
Example C151_ex :
  let m := Mac (Some [47;98;105;110;47;108;115]) (fun n => match n with 47 :: _ => Some n | _ => Some ([47;104;47] ++ n) end) in
  MacExecutableFilename m (repeat 9 10) (Some [120]) = Ok ([47;98;105;110;47;108;115;0;9;0], Some 8%nat) /\
  MacExecutableFilename m (repeat 9 7) (Some [120]) = Ok ([47;104;47;120;0;9;0], Some 5%nat) /\
  MacExecutableFilename m (repeat 9 4) (Some [120]) = Ok ([0;9;9;0], None) /\
  MacExecutableFilename m (repeat 9 7) None = Ok ([0;9;9;9;9;9;0], None).
Proof. vm_compute. repeat split; reflexivity. Qed.

Print Assumptions C151_executable.
Print Assumptions C151_inside.
Print Assumptions C151_empty_refuted.
Print Assumptions C151_argv0_refuted.
Print Assumptions C151_wrong_refuted.
