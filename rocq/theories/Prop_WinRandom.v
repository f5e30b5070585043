(** Final theorems about CSPRNG::GetBytes on Windows (C113). *)
From Verif Require Import Base M_WinRandom.
Open Scope N_scope.

(** A generator that, unless it fails, delivers as many bytes as it is asked for. *)
Definition honest (g : N -> option bytes) : Prop := forall n r, g n = Some r -> N.of_nat (length r) = n.

Lemma fill_part (data r : bytes) : (length r <= length data)%nat -> blit data 0 r = Ok (r ++ skipn (length r) data).
Proof. intro L. rewrite blit_in by lia. reflexivity. Qed.

(** Blocks below four gigabytes: true is answered exactly when the generator delivers, and then
    every byte of the block is the generator's; otherwise the block is as it was. *)
Theorem C113_filled : forall gen data, (forall g, gen = Some g -> honest g) -> N.of_nat (length data) < 2 ^ 32 ->
  WGetBytes gen data =
  match gen with
  | None => Ok (data, false)
  | Some g => match g (N.of_nat (length data)) with None => Ok (data, false) | Some r => Ok (r, true) end
  end.
Proof.
  intros [g|] data H L; [|reflexivity]. unfold WGetBytes. rewrite N.mod_small by exact L.
  destruct (g _) as [r|] eqn:E; [|reflexivity]. apply (H g eq_refl) in E. rewrite fill_part by lia. cbn [bind].
  rewrite skipn_all2 by lia. now rewrite app_nil_r.
Qed.

(** REFUTED: larger ones get only the remainder modulo four gigabytes; all other bytes stay what
    they were, and the answer is true just the same. *)
Theorem C113_large_refuted : forall g data, honest g -> 2 ^ 32 <= N.of_nat (length data) ->
  forall r, g (N.of_nat (length data) mod 2 ^ 32) = Some r ->
  WGetBytes (Some g) data = Ok (r ++ skipn (length r) data, true) /\
  (length r < length data)%nat /\ N.of_nat (length r) < 2 ^ 32.
Proof.
  intros g data H L r E. pose proof (H _ _ E) as Lr.
  assert (Lt : N.of_nat (length data) mod 2 ^ 32 < 2 ^ 32) by (apply N.mod_lt; discriminate).
  unfold WGetBytes. rewrite E. rewrite fill_part by lia. repeat split; lia.
Qed.

(** In particular a block of exactly four gigabytes does not change at all. *)
Theorem C113_nothing_refuted : forall g data, honest g -> N.of_nat (length data) = 2 ^ 32 -> g 0 <> None ->
  WGetBytes (Some g) data = Ok (data, true).
Proof.
  intros g data H L N0. assert (E0 : N.of_nat (length data) mod 2 ^ 32 = 0) by (rewrite L; reflexivity).
  destruct (g 0) as [r|] eqn:E; [|congruence]. rewrite <- E0 in E.
  destruct (C113_large_refuted g data H ltac:(lia) r E) as (X & _ & _). rewrite X.
  apply H in E. rewrite E0 in E. destruct r; [reflexivity|cbn in E; lia].
Qed.

(** Both kinds of block exist. *)
Example C113_ex : exists g data,
  honest g /\ N.of_nat (length data) = 2 ^ 32 + 1 /\ g 1 = Some [77] /\
  WGetBytes (Some g) data = Ok (77 :: skipn 1 data, true) /\ WGetBytes (Some g) [1;2;3] = Ok ([77;77;77], true).
Proof.
  pose (g := fun n => Some (repeat 77 (N.to_nat n))).
  assert (H : honest g). { intros n r E. injection E as <-. rewrite repeat_length. lia. }
  exists g, (repeat 0 (N.to_nat (2 ^ 32 + 1))).
  assert (L : N.of_nat (length (repeat 0 (N.to_nat (2 ^ 32 + 1)))) = 2 ^ 32 + 1) by (rewrite repeat_length; lia).
  revert L. generalize (repeat 0 (N.to_nat (2 ^ 32 + 1))). intros data L.
  split; [exact H|]. split; [exact L|]. split; [reflexivity|]. split; [|reflexivity].
  destruct (C113_large_refuted g data H ltac:(lia) [77]) as (X & _); [rewrite L; reflexivity|exact X].
Qed.

Print Assumptions C113_filled.
Print Assumptions C113_large_refuted.
Print Assumptions C113_nothing_refuted.
