(** C35, C36, C62: the random generator. *)
From Verif Require Import Base S_HashFn M_HashFn P_HashFn M_Random S_Random P_Random.

(** ** C35 *)
(** Whatever the device does, a value that GetInteger returns lies between the bounds. *)
Theorem C35_in_range opened fuel s i buf a b v j :
  (a < 2 ^ 64)%N -> (b < 2 ^ 64)%N ->
  get_integer opened fuel s i buf a b = Ok (true, v, j) -> (N.min a b <= v <= N.max a b)%N.
Proof.
  intros Ha Hb. unfold get_integer. destruct (N.ltb_spec b a) as [L|L]; intros E;
    destruct (bind_Ok _ _ _ E) as (mask & _ & E'); apply int_loop_range in E'; lia.
Qed.

(** ** C36 *)
(** The outcome of one draw [x] of 64 bits for bounds [a], [b]: the value [v], or none. *)
Definition draw_gives (a b x v : N) : Prop :=
  forall s i j l, sane 8 s -> first_full 8 s i j l -> le l = x -> returns s i a b v (S j).
Definition draw_rejected (a b x : N) : Prop :=
  forall s i j l, sane 8 s -> first_full 8 s i j l -> le l = x ->
    forall v k, returns s i a b v k <-> returns s (S j) a b v k.

Lemma draw_outcome a b : (a < 2 ^ 64)%N -> (b < 2 ^ 64)%N ->
  exists bits, (bits <= 64)%N /\ let max2 := (N.max a b - N.min a b)%N in
    (max2 < 2 ^ bits)%N /\ (bits = 0 \/ 2 ^ (bits - 1) <= max2)%N /\
    forall s i j l, sane 8 s -> first_full 8 s i j l ->
      (le l mod 2 ^ bits <= max2 -> returns s i a b (N.min a b + le l mod 2 ^ bits) (S j))%N /\
      (max2 < le l mod 2 ^ bits -> forall v k, returns s i a b v k <-> returns s (S j) a b v k)%N.
Proof.
  intros Ha Hb. set (lo := N.min a b). set (hi := N.max a b).
  assert (G : forall fuel s i buf, get_integer true fuel s i buf a b = let* mask := mask_loop 65 (hi - lo) 0 in int_loop true fuel s i buf mask (hi - lo) lo).
  { intros. unfold get_integer, lo, hi. destruct (N.ltb_spec b a).
    - now rewrite N.min_r, N.max_l by lia. - now rewrite N.min_l, N.max_r by lia. }
  destruct (mask_bits (hi - lo)) as (bits & E & B1 & B2 & B3); [lia|].
  assert (G' : forall fuel s i buf, get_integer true fuel s i buf a b = int_loop true fuel s i buf (2 ^ bits - 1) (hi - lo) lo).
  { intros. now rewrite G, E. }
  exists bits. split; auto. split; auto. split; auto. intros s i j l W F.
  assert (Ll : length l = 8) by apply F.
  split.
  - intros L buf Lb. exists (S (j - i)). rewrite G', (int_loop_ok s W (S (j - i)) i j l buf _ _ _ F Lb) by lia.
    rewrite land_mask. destruct (N.ltb_spec (hi - lo) (le l mod 2 ^ bits)); [lia|]. do 3 f_equal.
    unfold w64, W64. rewrite N.mod_small; lia.
  - intros L v k. split.
    + intros Q buf Lb. destruct (Q buf Lb) as (fuel & Ef).
      apply get_integer_mono with (f' := S (j - i) + fuel) in Ef; [|lia].
      rewrite G', (int_loop_ok s W _ i j l buf _ _ _ F Lb) in Ef by lia. rewrite land_mask in Ef.
      destruct (N.ltb_spec (hi - lo) (le l mod 2 ^ bits)); [|lia].
      eexists. rewrite G'. eapply int_loop_buf; [exact W|exact Ll|exact Lb|exact Ef].
    + intros Q buf Lb. destruct (Q l Ll) as (fuel & Ef). rewrite G' in Ef. exists (S (j - i) + fuel).
      rewrite G', (int_loop_ok s W _ i j l buf _ _ _ F Lb) by lia. rewrite land_mask.
      destruct (N.ltb_spec (hi - lo) (le l mod 2 ^ bits)); [|lia]. eapply int_loop_mono; eauto. lia.
Qed.

(** Any number below 2^64 is the value of eight bytes. *)
Fixpoint bytes_of (n : nat) (x : N) : bytes := match n with O => [] | S k => (x mod 256)%N :: bytes_of k (x / 256)%N end.
Lemma bytes_of_le n : forall x, (x < 2 ^ (8 * N.of_nat n))%N -> le (bytes_of n x) = x /\ length (bytes_of n x) = n /\ byteList (bytes_of n x).
Proof.
  induction n as [|n IH]; intros x H; cbn [bytes_of le length].
  - change (2 ^ (8 * N.of_nat 0))%N with 1%N in H. repeat split; [lia|constructor].
  - destruct (IH (x / 256)%N) as (E & L & B).
    + apply N.div_lt_upper_bound; [lia|]. replace (8 * N.of_nat (S n))%N with (8 + 8 * N.of_nat n)%N in H by lia.
      rewrite N.pow_add_r in H. exact H.
    + rewrite E, L. split; [|split; auto].
      * pose proof (N.div_mod x 256). lia.
      * constructor; auto. apply N.mod_lt. discriminate.
Qed.

Lemma returns_fun s i a b v w j k : returns s i a b v j -> returns s i a b w k -> v = w.
Proof.
  intros A B. destruct (A (repeat 0%N 8) eq_refl) as (f & E). destruct (B (repeat 0%N 8) eq_refl) as (g & G).
  apply get_integer_mono with (f' := f + g) in E; [|lia]. apply get_integer_mono with (f' := f + g) in G; [|lia].
  rewrite E in G. now inversion G.
Qed.

(** For every pair of bounds there is a number [c] such that every value between
    them is the outcome of exactly [c] of the 2^64 possible draws; every other
    draw is rejected and the next one decides; and more than half of all draws
    are accepted. *)
Theorem C36_unbiased a b :
  (a < 2 ^ 64)%N -> (b < 2 ^ 64)%N ->
  exists c,
    (forall v, (N.min a b <= v <= N.max a b)%N -> exactly c (fun x => (x < 2 ^ 64)%N /\ draw_gives a b x v)) /\
    (forall x, (x < 2 ^ 64)%N -> (exists v, (N.min a b <= v <= N.max a b)%N /\ draw_gives a b x v) \/ draw_rejected a b x) /\
    (2 ^ 64 < 2 * (c * (N.max a b - N.min a b + 1)))%N.
Proof.
  intros Ha Hb. destruct (draw_outcome a b Ha Hb) as (bits & B1 & B2 & B3 & O). cbv zeta in *.
  set (lo := N.min a b) in *. set (hi := N.max a b) in *. assert (LH : (lo <= hi)%N) by (unfold lo, hi; lia).
  assert (P0 : (0 < 2 ^ bits)%N) by (apply N.neq_0_lt_0, N.pow_nonzero; lia).
  assert (PP : (2 ^ 64 = 2 ^ (64 - bits) * 2 ^ bits)%N) by (rewrite <- N.pow_add_r; f_equal; lia).
  assert (PQ : (0 < 2 ^ (64 - bits))%N) by (apply N.neq_0_lt_0, N.pow_nonzero; lia).
  assert (YES : forall x, (x mod 2 ^ bits <= hi - lo)%N -> draw_gives a b x (lo + x mod 2 ^ bits)%N).
  { intros x L s i j l W F <-. exact (proj1 (O s i j l W F) L). }
  assert (NO : forall x, (hi - lo < x mod 2 ^ bits)%N -> draw_rejected a b x).
  { intros x L s i j l W F <-. exact (proj2 (O s i j l W F) L). }
  (* a device whose first draw is x and whose second is 0 *)
  assert (CONV : forall x v, (x < 2 ^ 64)%N -> (lo <= v <= hi)%N -> draw_gives a b x v -> (x mod 2 ^ bits = v - lo)%N).
  { intros x v Hx Hv D. destruct (bytes_of_le 8 x Hx) as (E1 & E2 & E3).
    destruct (N.le_gt_cases (x mod 2 ^ bits) (hi - lo)) as [L|L].
    - set (s := fun _ : nat => RGot (bytes_of 8 x)).
      assert (W : sane 8 s). { intros i. unfold s. split; auto; rewrite E2; lia. }
      assert (F : first_full 8 s 0 0 (bytes_of 8 x)). { repeat split; auto; lia. }
      pose proof (returns_fun s 0 a b _ _ _ _ (D s 0 0 _ W F E1) (YES x L s 0 0 _ W F E1)). lia.
    - exfalso. (* rejected: the value comes from the next draw, which may give another answer and position *)
      set (s := fun k : nat => if k =? 0 then RGot (bytes_of 8 x) else RGot (repeat 0%N 8)).
      assert (W : sane 8 s).
      { intros [|i]; unfold s; cbn [Nat.eqb]; [rewrite E2|rewrite repeat_length]; split; auto.
        repeat constructor. }
      assert (F : first_full 8 s 0 0 (bytes_of 8 x)). { repeat split; auto; lia. }
      assert (F1 : first_full 8 s 1 1 (repeat 0%N 8)). { repeat split; auto; lia. }
      pose proof (D s 0 0 _ W F E1) as R1.
      apply (NO x L s 0 0 _ W F E1) in R1.
      assert (R2 : returns s 1 a b lo 2).
      { replace lo with (lo + 0 mod 2 ^ bits)%N by (rewrite N.mod_0_l; lia).
        apply (YES 0%N) with (l := repeat 0%N 8); auto. rewrite N.mod_0_l; lia. }
      destruct (R1 (repeat 0%N 8) eq_refl) as (f & Ef). destruct (R2 (repeat 0%N 8) eq_refl) as (g & Eg).
      apply get_integer_mono with (f' := f + g) in Ef; [|lia]. apply get_integer_mono with (f' := f + g) in Eg; [|lia].
      rewrite Ef in Eg. inversion Eg. }
  exists (2 ^ (64 - bits))%N. split; [|split].
  - intros v Hv. exists (fun t => t * 2 ^ bits + (v - lo))%N.
    assert (V : (v - lo < 2 ^ bits)%N) by lia.
    assert (M : forall t, ((t * 2 ^ bits + (v - lo)) mod 2 ^ bits = v - lo)%N).
    { intros t. rewrite N.add_comm, N.mod_add by lia. now apply N.mod_small. }
    split; [|split].
    + intros t Ht. split; [nia|]. replace v with (lo + (v - lo))%N at 2 by lia. rewrite <- (M t) at 2. apply YES. rewrite M. lia.
    + intros t u Ht Hu E. nia.
    + intros x [Hx D]. exists (x / 2 ^ bits)%N. split; [apply N.div_lt_upper_bound; lia|].
      rewrite <- (CONV x v Hx Hv D). pose proof (N.div_mod x (2 ^ bits)). lia.
  - intros x Hx. destruct (N.le_gt_cases (x mod 2 ^ bits) (hi - lo)) as [L|L]; [left|right; auto].
    exists (lo + x mod 2 ^ bits)%N. split; [alia|auto].
  - destruct B3 as [->|B3].
    + change (64 - 0)%N with 64%N in *. nia.
    + assert (Q : (2 ^ bits = 2 * 2 ^ (bits - 1))%N).
      { rewrite <- (N.pow_1_r 2) at 2. rewrite <- N.pow_add_r. f_equal. destruct (N.eq_dec bits 0) as [->|]; [|lia]. cbn in B2, B3. lia. }
      rewrite PP, Q. nia.
Qed.

(** ** C62 *)
(** REFUTED: a device that never delivers the full amount (it keeps failing, or
    keeps delivering less) makes GetBytes loop forever. *)
Theorem C62_get_bytes_refuted size s i buf :
  sane size s -> size <= length buf -> (forall k, ~ full size (s k)) ->
  forall fuel, get_bytes true fuel s i buf size = Fuel.
Proof. intros W L N fuel. now apply bytes_loop_never. Qed.

(** What holds: as soon as one read delivers everything, GetBytes returns true
    with exactly these bytes, and the rest of the buffer is unchanged; it never
    returns false once the device is open. *)
Theorem C62_get_bytes_full size s i j l buf fuel :
  sane size s -> size <= length buf -> first_full size s i j l -> j - i < fuel ->
  get_bytes true fuel s i buf size = Ok (true, l ++ skipn size buf, S j).
Proof.
  intros W L (IJ & E & El & B) F. unfold get_bytes. rewrite (bytes_loop_ok size s W (j - i) i buf fuel l); auto.
  - do 2 f_equal. lia.
  - rewrite <- E. f_equal. lia.
  - intros k K. apply B. lia.
Qed.
Example C62_closed fuel s i buf size : get_bytes false fuel s i buf size = Ok (false, buf, i).
Proof. reflexivity. Qed.

Print Assumptions C35_in_range.
Print Assumptions C36_unbiased.
Print Assumptions C62_get_bytes_refuted.
Print Assumptions C62_get_bytes_full.

(** Bounds 10 and 3: the mask is 7; the draws 0xff..fd, then an interrupted read, a short one, then 0x..05. *)
Definition dev : device := fun i => match i with
  | 0 => RGot [15; 0; 0; 0; 0; 0; 0; 9]%N | 1 => RErr true | 2 => RGot [1; 2]%N | 3 => RErr false
  | _ => RGot [0x25; 1; 2; 3; 4; 5; 6; 7]%N end.
Example C35_example : get_integer true 10 dev 0 (repeat 0%N 8) 8 3 = Ok (true, 8%N, 5).
Proof. vm_compute. reflexivity. Qed.
Example C35_same_bounds : get_integer true 10 dev 0 (repeat 0%N 8) 7 7 = Ok (true, 7%N, 1).
Proof. vm_compute. reflexivity. Qed.
Example C62_error_forever : (forall k, ~ full 4 ((fun _ : nat => RErr false) k)) /\ get_bytes true 50 (fun _ => RErr false) 0 [1; 2; 3; 4]%N 4 = Fuel.
Proof. split; [cbn; auto|vm_compute; reflexivity]. Qed.
Example C62_full : get_bytes true 10 dev 1 (repeat 9%N 10) 8 = Ok (true, [0x25; 1; 2; 3; 4; 5; 6; 7; 9; 9]%N, 5).
Proof. vm_compute. reflexivity. Qed.
