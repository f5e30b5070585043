(** C53, C54, C55, C69, C70, C71: files. *)
From Verif Require Import Base S_File M_File P_File.
Open Scope N_scope.
Local Arguments N.pow : simpl never.
Local Arguments W64 : simpl never.

(** A file opened for reading and writing. *)
Definition opened_file (c : bytes) : file * disk := fresh_file RDWR c.

(** ** C53 *)

(** Whatever read(2) and write(2) do (short, interrupted, failing), the position never leaves
    the file and a read never goes past its end. *)
Theorem C53_bounds : forall er ew n c, N.of_nat (length c) < 2 ^ 62 ->
  stays er ew n (fst (opened_file c)) (snd (opened_file c)).
Proof.
  intros er ew n c Hc. apply stays_ok. unfold binv, inside, opened_file, fresh_file, Open, Close. cbn [opened reads writes negb fst snd curr max off data]. lia.
Qed.

(** As long as writes do not fail and are not interrupted, the answers, the contents and the
    position are those of the specification, for any splitting of the transfers; reads may be
    interrupted and may fail. *)
Theorem C53_exact : forall er ew n c, N.of_nat (length c) < 2 ^ 62 ->
  (forall k, ew k <> Intr) -> (forall k, ew k <> Fail) ->
  tracks er ew n (fst (opened_file c)) (snd (opened_file c)) (AFile c 0).
Proof.
  intros er ew n c Hc He Hf. apply tracks_ok; [exact He|exact Hf|].
  apply (fresh_sync RDWR c _ _ eq_refl); [discriminate|exact Hc].
Qed.

(** No operation runs forever if the system calls keep making progress. *)
Theorem C53_ends : forall er ew p f d a o, sync true true f d a -> fvalid a o -> (forall k, ew k <> Intr) ->
  (forall k, exists j, (j < p)%nat /\ er (k + j)%nat <> Intr) -> lively p ew ->
  exists fuel f' d' x, fexec er ew fuel f d o = Ok (f', d', x).
Proof.
  intros er ew p f d a o HS Hv He Hr Hl. destruct o as [w k|n|x]; cbn [fexec].
  - exists O. destruct (Seek f d w k) as [[f' d'] b]. eauto.
  - exists p. pose proof (read_ok er p f d a _ n HS Hv) as L.
    assert (N0 : Read er p f d n <> Fuel).
    { unfold Read. destruct (_ || _); [discriminate|]. match goal with |- context [if ?c =? 0 then _ else _] => destruct (c =? 0); [discriminate|] end.
      match goal with |- context [read_loop er p d ?m] => pose proof (read_loop_ends p er Hr d m) as R; destruct (read_loop er p d m) as [[d1 r]| |] end;
        [|discriminate|congruence]. cbn [bind]. destruct r; discriminate. }
    destruct (Read er p f d n) as [[[[f' d'] b] y]| |]; [|contradiction|congruence]. cbn [bind]. eauto.
  - exists (p * length x)%nat. pose proof (write_ok ew (p * length x)%nat f d a _ x He HS Hv) as L.
    pose proof HS as (H1 & H2 & H3 & H4 & H5 & H6 & H7 & H8 & H9).
    assert (N0 : Write ew (p * length x) f d x <> Fuel).
    { unfold Write. destruct (_ || _); [discriminate|]. destruct (Nat.eqb_spec (length x) 0); [discriminate|].
      assert (R : write_loop ew (p * length x) d x 0 (length x) <> Fuel).
      { apply (write_loop_ends p ew He Hl (length x)); [rewrite H5, H4; exact H8|reflexivity|lia|lia|lia]. }
      destruct (write_loop ew (p * length x) d x 0 (length x)) as [[[d1 ok] i]| |]; [|discriminate|congruence].
      cbn [bind]. destruct ok; discriminate. }
    destruct (Write ew (p * length x) f d x) as [[[[f' d'] b] y]| |]; [|contradiction|congruence]. cbn [bind]. eauto.
Qed.

(** Seeking forward by a distance for which the 64-bit sum wraps around moves backward
    instead of going to the end: by 2^64 - j bytes from position [p >= j] it goes to [p - j]. *)
Theorem C53_forward_refuted : forall f d a j, sync true true f d a -> 0 < j -> j <= apos a ->
  exists f' d', Seek f d Forward (W64 - j) = (f', d', true) /\ curr f' = apos a - j /\
    target a Forward (W64 - j) = size a /\ curr f' < size a.
Proof.
  intros f d a j (H1 & H2 & H3 & H4 & H5 & H6 & H7 & H8 & H9) H0 Hj. unfold Seek. rewrite H1, H6, H7. cbn [negb].
  rewrite P62_val in H9.
  assert (E : w64 (apos a + (W64 - j)) = apos a - j).
  { replace (apos a + (W64 - j)) with (apos a - j + 1 * W64) by (rewrite W64_val in *; lia). unfold w64. rewrite N.mod_add by discriminate.
    apply N.mod_small. rewrite W64_val. lia. }
  rewrite E. destruct (N.leb_spec (apos a - j) (size a)) as [L|L]; [|lia].
  do 2 eexists. split; [reflexivity|]. cbn [curr]. split; [reflexivity|]. unfold target. rewrite W64_val. lia.
Qed.

(** ** C54 *)
Definition full_reads (e : nat -> ev) : Prop := forall k, exists j, e k = Part j /\ (COPY <= j)%nat.

(** Copying a file whose length is a multiple of 8192, over any file. *)
Theorem C54_multiple : forall er ew p src dst buf, full_reads er -> (forall k, ew k <> Intr) -> (forall k, ew k <> Fail) -> lively p ew ->
  length buf = COPY -> N.of_nat (length src) < 2 ^ 60 -> N.of_nat (length dst) < 2 ^ 60 -> (length src mod COPY = 0)%nat ->
  exists fuel, Copy fuel er ew src dst buf = Ok src.
Proof.
  intros er ew p src dst buf Hr He Hf Hp Hb Hs Hd Hm.
  destruct (Copy_ok er ew p src dst buf Hr He Hf Hp Hb Hs Hd) as (fuel & t & q & E & Ht & Hq).
  exists fuel. rewrite E. assert (t = []); [|subst; rewrite app_nil_r; reflexivity].
  destruct t as [|x t]; [reflexivity|]. exfalso. rewrite app_length in Hq. pose proof COPY_pos as CP.
  apply Nat.mod_divides in Hm; [|lia]. destruct Hm as [k Hk]. rewrite Hk, Nat.mul_comm in Hq.
  set (C := COPY) in *. clearbody C. cbn [length] in *. assert (q = k \/ k < q)%nat as [-> | Hlt] by nia; nia.
Qed.

(** Any other length: the result has the source as a prefix, followed by leftovers. *)
Theorem C54_prefix : forall er ew p src dst buf, full_reads er -> (forall k, ew k <> Intr) -> (forall k, ew k <> Fail) -> lively p ew ->
  length buf = COPY -> N.of_nat (length src) < 2 ^ 60 -> N.of_nat (length dst) < 2 ^ 60 ->
  exists fuel t, Copy fuel er ew src dst buf = Ok (src ++ t) /\ (length t < COPY)%nat.
Proof.
  intros er ew p src dst buf Hr He Hf Hp Hb Hs Hd.
  destruct (Copy_ok er ew p src dst buf Hr He Hf Hp Hb Hs Hd) as (fuel & t & q & E & Ht & Hq). exists fuel, t. split; assumption.
Qed.

(** Whatever the system calls do, the copy of a file of any other length differs from it. *)
Theorem C54_refuted : forall fuel er ew src dst buf r, length buf = COPY -> (length src mod COPY <> 0)%nat ->
  Copy fuel er ew src dst buf = Ok r -> r <> src.
Proof.
  intros fuel er ew src dst buf r Hb Hm E ->. destruct (Copy_length _ _ _ _ _ _ _ Hb E) as [q Hq].
  apply Hm. rewrite Hq. apply Nat.mod_mul. pose proof COPY_pos. lia.
Qed.

(** Failing writes are not noticed: Copy succeeds with an empty destination. *)
Theorem C54_errors_refuted : forall er src dst buf, full_reads er -> length buf = COPY -> N.of_nat (length src) < 2 ^ 60 ->
  exists fuel, Copy fuel er (fun _ => Fail) src dst buf = Ok [].
Proof. intros er src dst buf Hr Hb Hs. apply Copy_fails; [exact Hr|reflexivity|exact Hb|exact Hs]. Qed.

(** ** C55 *)

(** For any splitting into short writes and any failure, a prefix of the data reaches the
    file, each byte once and in order, and DataWritten is its length. *)
Theorem C55_write : forall ew fuel f d a rr x, (forall k, ew k <> Intr) -> sync rr true f d a -> fvalid a (FWrite x) ->
  match Write ew fuel f d x with
  | UB => False
  | Fuel => True
  | Ok (f', d', ok, n) => n <= N.of_nat (length x) /\ data d' = overwrite (content a) (apos a) (firstn (N.to_nat n) x) /\
      (ok = true -> n = N.of_nat (length x))
  end.
Proof.
  intros ew fuel f d a rr x He HS Hv. pose proof (write_ok ew fuel f d a _ x He HS Hv) as L.
  destruct (Write ew fuel f d x) as [[[[f' d'] ok] n]| |]; [|exact L|exact I].
  destruct L as (L1 & L2 & _ & L3 & _). split; [exact L1|]. split; [exact L2|]. intro Hok. exact (proj1 (L3 Hok)).
Qed.

(** An interruption after [i] bytes makes the last of them reach the file twice, and the
    answer is still success with the length of the data. *)
Theorem C55_interrupt_refuted : forall f d a rr x i ew, sync rr true f d a -> (0 < i < length x)%nat ->
  ew (used d) = Part i -> ew (S (used d)) = Intr -> ew (S (S (used d))) = Part (length x) ->
  exists f' d', Write ew 3 f d x = Ok (f', d', true, N.of_nat (length x)) /\
    data d' = overwrite (content a) (apos a) (firstn i x ++ skipn (i - 1) x).
Proof.
  intros f d a rr x i ew (H1 & H2 & H3 & H4 & H5 & H6 & H7 & H8 & H9) Hi E1 E2 E3.
  unfold Write. rewrite H1, H3. cbn [negb orb]. destruct (Nat.eqb_spec (length x) 0); [lia|].
  cbn [write_loop]. cbn [skipn]. rewrite firstn_all.
  rewrite (sys_write_part ew d x i) by (assumption || (rewrite H5, H4; exact H8)).
  assert (L : length (firstn i x) = i) by (rewrite firstn_length; lia). rewrite L.
  destruct (Nat.eqb_spec (length x - i) 0); [lia|]. cbn [Nat.add].
  unfold sys_write at 1. cbn [used]. rewrite E2. destruct i as [|j]; [lia|].
  match goal with |- context [sys_write ew ?d1 ?y] => rewrite (sys_write_part ew d1 y (length x)) end;
    [|cbn [tick data off]; rewrite overwrite_length, L by (rewrite H5, H4; exact H8); lia|exact E3].
  rewrite firstn_firstn. rewrite (firstn_all2 (n := Nat.min _ _) (skipn j x)) by (rewrite skipn_length; lia).
  rewrite skipn_length. cbn [tick data off used].
  destruct (Nat.eqb_spec (S (length x - S j) - (length x - j)) 0); [|lia]. cbn [bind].
  do 2 eexists. split; [do 2 f_equal; lia|]. cbn [data].
  replace (S j - 1)%nat with j by lia.
  replace (N.of_nat (S j)) with (N.of_nat (length (firstn (S j) x))) by (rewrite L; reflexivity).
  rewrite overwrite_app by (rewrite H5, H4; exact H8). rewrite H4, H5. reflexivity.
Qed.

(** An interruption before the first byte makes write(2) read before the data. *)
Theorem C55_first_refuted : forall f d a rr x ew g, sync rr true f d a -> x <> [] -> ew (used d) = Intr ->
  Write ew (S g) f d x = UB.
Proof.
  intros f d a rr x ew g (H1 & H2 & H3 & H4 & H5 & H6 & H7 & H8 & H9) Hx E.
  unfold Write. rewrite H1, H3. cbn [negb orb]. destruct x as [|y x]; [congruence|]. cbn [length Nat.eqb write_loop].
  unfold sys_write. rewrite E. reflexivity.
Qed.

(** ** C69 *)

(** A write that fails after [i] bytes leaves the object's position where it was, while the
    system's has moved: the next read of [n] bytes gives those [i] bytes further on, although
    the object says it is at the old position. *)
Theorem C69_refuted : forall er ew f d a x i, sync true true f d a -> (0 < i < length x)%nat ->
  N.of_nat (length (content a)) + N.of_nat (length x) < 2 ^ 62 ->
  ew (used d) = Part i -> ew (S (used d)) = Fail -> (exists j, er (S (S (used d))) = Part j /\ (0 < j)%nat) ->
  (N.to_nat (apos a) + length x < length (content a))%nat ->
  exists f' d', Write ew 2 f d x = Ok (f', d', false, N.of_nat i) /\ curr f' = apos a /\
    exists f2 d2, Read er 1 f' d' 1 = Ok (f2, d2, true, [nth (N.to_nat (apos a) + i) (content a) 0]) /\
      curr f2 = apos a + 1.
Proof.
  intros er ew f d a x i (H1 & H2 & H3 & H4 & H5 & H6 & H7 & H8 & H9) Hi Hsz E1 E2 (j & Ej & Hj) Hroom.
  unfold Write. rewrite H1, H3. cbn [negb orb]. destruct (Nat.eqb_spec (length x) 0); [lia|].
  cbn [write_loop]. cbn [skipn]. rewrite firstn_all.
  rewrite (sys_write_part ew d x i) by (assumption || (rewrite H5, H4; exact H8)).
  assert (L : length (firstn i x) = i) by (rewrite firstn_length; lia). rewrite L.
  destruct (Nat.eqb_spec (length x - i) 0); [lia|]. cbn [Nat.add].
  unfold sys_write at 1. cbn [used]. rewrite E2. cbn [bind]. do 2 eexists. split; [reflexivity|]. split; [exact H6|].
  unfold Read, UpdateMaxPos. rewrite H1, H2. cbn [negb orb fst]. rewrite H6, H7, sub64_le by exact H8. unfold size in *.
  destruct (N.ltb_spec (N.of_nat (length (content a)) - apos a) 1); [lia|].
  change (1 =? 0) with false. cbn [read_loop]. unfold sys_read. cbn [tick used data off]. rewrite Ej. cbn [bind].
  assert (Eb : firstn (Nat.min (N.to_nat 1) (Nat.max 1 j)) (skipn (N.to_nat (off d + N.of_nat i)) (overwrite (data d) (off d) (firstn i x)))
               = [nth (N.to_nat (apos a) + i) (content a) 0]).
  { rewrite H4, H5. replace (Nat.min (N.to_nat 1) (Nat.max 1 j)) with 1%nat by lia.
    replace (N.to_nat (apos a + N.of_nat i)) with (N.to_nat (apos a) + i)%nat by lia. unfold overwrite. rewrite L.
    rewrite app_assoc, skipn_app, skipn_all2 by (rewrite app_length, firstn_length; lia).
    rewrite app_length, firstn_length, L. replace (_ - _)%nat with O by lia. cbn [app skipn].
    set (k := (N.to_nat (apos a) + i)%nat) in *. assert (Hk : (k < length (content a))%nat) by lia.
    clearbody k. clear - Hk. revert k Hk. induction (content a) as [|y l IH]; intros k Hk; [cbn in Hk; lia|].
    destruct k as [|k]; [reflexivity|]. cbn [skipn nth]. apply IH. cbn in Hk. lia. }
  rewrite Eb. do 2 eexists. split; [reflexivity|]. cbn [curr length N.of_nat]. rewrite H6.
  change (N.of_nat 1) with 1. apply w64_small. rewrite W64_val. rewrite P62_val in Hsz. lia.
Qed.

(** ** C70 *)

(** If open(2) itself fails, or the access mode is not valid, the object is closed. *)
Theorem C70_open : forall f a s ok lock n, ok = false \/ a = BADACCESS -> Open f a s ok lock n = (fst (Open f a s ok lock n), false) /\
  opened (fst (Open f a s ok lock n)) = false.
Proof. intros f a s ok lock n [-> | ->]; [destruct a|destruct ok]; split; reflexivity. Qed.

(** If only the lock is refused, Open fails and leaves the file open, with the positions of
    the file that was open before; writing to it then succeeds. *)
Theorem C70_locked_refuted : forall f s n c ew x, s <> BadShare -> x <> [] -> ew O = Part (length x) ->
  snd (Open f RDWR s true false n) = false /\ opened (fst (Open f RDWR s true false n)) = true /\
  exists f' d', Write ew 1 (fst (Open f RDWR s true false n)) (Disk c 0 0) x = Ok (f', d', true, N.of_nat (length x)) /\
    data d' = overwrite c 0 x.
Proof.
  intros f s n c ew x Hs Hx E. assert (EO : Open f RDWR s true false n = (File true true true (curr f) (max f), false))
    by (destruct s; reflexivity || congruence).
  rewrite EO. cbn [fst snd opened]. split; [reflexivity|]. split; [reflexivity|].
  unfold Write. cbn [opened writes negb orb]. destruct (Nat.eqb_spec (length x) 0) as [Z|Z]; [destruct x; [congruence|discriminate]|].
  cbn [write_loop skipn]. rewrite firstn_all. rewrite (sys_write_part ew (Disk c 0 0) x (length x)); [|cbn; lia|exact E].
  rewrite firstn_all, Nat.sub_diag. cbn [Nat.eqb bind Nat.add]. do 2 eexists. split; reflexivity.
Qed.

(** ** C71 *)

(** Moving within a file system, or a file whose length is a multiple of 8192 between file
    systems without write errors, keeps the contents. *)
Theorem C71_moved : forall er ew p ren src dst buf, full_reads er -> (forall k, ew k <> Intr) -> (forall k, ew k <> Fail) -> lively p ew ->
  length buf = COPY -> N.of_nat (length src) < 2 ^ 60 -> N.of_nat (length dst) < 2 ^ 60 ->
  ren = true \/ (length src mod COPY = 0)%nat ->
  exists fuel, Move fuel er ew ren src dst buf = Ok (src, false).
Proof.
  intros er ew p ren src dst buf Hr He Hf Hp Hb Hs Hd [-> | Hm]; [exists O; reflexivity|].
  destruct ren; [exists O; reflexivity|]. destruct (C54_multiple er ew p src dst buf Hr He Hf Hp Hb Hs Hd Hm) as [fuel E].
  exists fuel. unfold Move. rewrite E. reflexivity.
Qed.

(** Between file systems, with a full destination, the source is removed although nothing was
    copied. *)
Theorem C71_lost_refuted : forall er src dst buf, full_reads er -> length buf = COPY -> N.of_nat (length src) < 2 ^ 60 ->
  exists fuel, Move fuel er (fun _ => Fail) false src dst buf = Ok ([], false).
Proof.
  intros er src dst buf Hr Hb Hs. destruct (C54_errors_refuted er src dst buf Hr Hb Hs) as [fuel E].
  exists fuel. unfold Move. rewrite E. reflexivity.
Qed.

(** ** Examples *)
Definition sched (l : list ev) (k : nat) : ev := nth k l (Part 10000).

(** Read 3 of "hello" (interrupted once), seek back 1, write "LOW" one byte at a time, read. *)
Example C53_ex :
  let er := sched [Intr] in let ew := fun _ => Part 1 in
  let (f, d) := opened_file [104; 101; 108; 108; 111] in
  match fexec er ew 9 f d (FRead 3) with
  | Ok (f1, d1, x1) => x1 = ABytes true [104; 101; 108] /\ curr f1 = 3 /\
    match fexec er ew 9 f1 d1 (FSeek Backward 1) with
    | Ok (f2, d2, x2) => curr f2 = 2 /\
      match fexec er ew 9 f2 d2 (FWrite [76; 79; 87; 33]) with
      | Ok (f3, d3, x3) => x3 = AWrote true 4 /\ data d3 = [104; 101; 76; 79; 87; 33] /\ curr f3 = 6 /\ max f3 = 6
      | _ => False
      end
    | _ => False
    end
  | _ => False
  end.
Proof. vm_compute. repeat split; reflexivity. Qed.

Example C53_forward_ex : let (f, d) := opened_file [1; 2; 3] in
  let '(f1, d1, _) := Seek f d FromStart 2 in
  let '(f2, d2, ok) := Seek f1 d1 Forward (W64 - 1) in ok = true /\ curr f2 = 1.
Proof. vm_compute. repeat split; reflexivity. Qed.

Example C54_ex : match Copy 5 (sched []) (sched [Part 5000]) (repeat 7 COPY) [1; 2] (repeat 9 COPY) with
  | Ok r => r = repeat 7 COPY | _ => False end.
Proof. vm_compute. reflexivity. Qed.

(** Three bytes become 8192. *)
Example C54_refuted_ex : match Copy 5 (sched []) (sched []) [65; 66; 67] [] (repeat 9 COPY) with
  | Ok r => r = 65 :: 66 :: 67 :: repeat 9 (COPY - 3) | _ => False end.
Proof. vm_compute. reflexivity. Qed.

Example C55_ex : let (f, d) := opened_file [] in
  match Write (sched [Part 2; Part 0; Part 1; Fail]) 9 f d [1; 2; 3; 4; 5] with
  | Ok (f', d', ok, n) => ok = false /\ n = 3 /\ data d' = [1; 2; 3] /\ curr f' = 0
  | _ => False
  end.
Proof. vm_compute. repeat split; reflexivity. Qed.

Example C55_interrupt_ex : let (f, d) := opened_file [] in
  match Write (sched [Part 1; Intr]) 9 f d [97; 98; 99] with
  | Ok (f', d', ok, n) => ok = true /\ n = 3 /\ data d' = [97; 97; 98; 99] /\ curr f' = 3
  | _ => False
  end.
Proof. vm_compute. repeat split; reflexivity. Qed.

Example C69_ex : let (f, d) := opened_file [1; 2; 3; 4] in
  match Write (sched [Part 1; Fail]) 9 f d [7; 8] with
  | Ok (f1, d1, ok, n) => ok = false /\ n = 1 /\ curr f1 = 0 /\
      match Read (sched []) 9 f1 d1 1 with Ok (f2, d2, true, b) => b = [2] /\ curr f2 = 1 | _ => False end
  | _ => False
  end.
Proof. vm_compute. repeat split; reflexivity. Qed.

Example C70_ex : let r := Open (File false false false 0 0) RDWR ShareNone true false 10 in snd r = false /\ opened (fst r) = true.
Proof. vm_compute. split; reflexivity. Qed.

Example C71_ex : match Move 5 (sched []) (fun _ => Fail) false [1; 2; 3] [4] (repeat 9 COPY) with
  | Ok (r, there) => r = [] /\ there = false | _ => False end.
Proof. vm_compute. split; reflexivity. Qed.

Print Assumptions C53_bounds.
Print Assumptions C53_exact.
Print Assumptions C53_ends.
Print Assumptions C53_forward_refuted.
Print Assumptions C54_multiple.
Print Assumptions C54_prefix.
Print Assumptions C54_refuted.
Print Assumptions C54_errors_refuted.
Print Assumptions C55_write.
Print Assumptions C55_interrupt_refuted.
Print Assumptions C55_first_refuted.
Print Assumptions C69_refuted.
Print Assumptions C70_open.
Print Assumptions C70_locked_refuted.
Print Assumptions C71_moved.
Print Assumptions C71_lost_refuted.
