(** C37, C38, C39, C60: searching and replacing. *)
From Verif Require Import Base M_Find S_Find P_Find P_Replace.

(** ** C37 *)
(** Any program of SetPattern, SetData, FindNext and SkipMatch on a new object, for any
    comparison (memcmp only when it agrees with the comparison): no access outside pattern or
    data, and every answer is the one of the specification. *)
Theorem C37_finds_exactly : forall eq p, Forall (call_ok eq) p ->
  exists f l s, run eq p new_finder = Ok (f, l) /\ steps eq Idle p s l.
Proof.
  intros eq p V. destruct (run_ok eq p new_finder Idle) as (f & l & s & E & S & _); auto.
  - cbn. auto.
  - eauto.
Qed.

(** The specification leaves no choice. *)
Theorem C37_determinate : forall eq p s s1 l1 s2 l2,
  steps eq s p s1 l1 -> steps eq s p s2 l2 -> s1 = s2 /\ l1 = l2.
Proof.
  intros eq p. induction p as [|c p IH]; intros s s1 l1 s2 l2 H K; inversion H; inversion K; subst; auto.
  match goal with A : step _ _ _ _ _, B : step _ _ _ _ _ |- _ => destruct (step_fun _ _ _ _ _ _ _ A B) as [-> ->]; clear A B end.
  match goal with A : steps _ _ _ _ _, B : steps _ _ _ _ _ |- _ =>
    destruct (IH _ _ _ _ _ A B) as [-> ->]; auto end.
Qed.

(** One search from the start: the first occurrence, or NULL exactly when there is none. *)
Theorem C37_first : forall eq pat data m, memok eq m -> pat <> [] ->
  exists f r, run eq [CPattern pat; CData data; CFind m] new_finder = Ok (f, [ANone; ANone; AFound r]) /\
    first_from eq pat data 0 r.
Proof.
  intros eq pat data m M Hp. destruct pat as [|p pat]; [congruence|].
  destruct (C37_finds_exactly eq [CPattern (p :: pat); CData data; CFind m]) as (f & l & s & E & S).
  { repeat constructor. exact M. }
  rewrite E. repeat match goal with
    | H : steps _ _ (_ :: _) _ _ |- _ => inversion H; clear H; subst
    | H : steps _ _ [] _ _ |- _ => inversion H; clear H; subst
    | H : step _ _ (CPattern _) _ _ |- _ => inversion H; clear H; subst
    | H : step _ _ (CData _) _ _ |- _ => inversion H; clear H; subst end.
  exists f. unfold resume, ended in *. destruct (Nat.ltb_spec (length data) (0 + length (p :: pat))) as [L|L];
    match goal with H : step _ _ (CFind _) _ _ |- _ => inversion H; clear H; subst end.
  - exists None. split; auto. intros k _ [O _]. lia.
  - exists (Some i). auto.
  - exists None. auto.
Qed.

(** A pattern of 15 elements, long enough for all five filters; two overlapping occurrences,
    the second one skipped; memcmp on and off. *)
Definition pat15 : list N := [1;2;1;2;1;2;1;2;3;2;1;2;1;2;1]%N.
Definition data34 : list N := ([9;1;2;1] ++ pat15 ++ [2;1;2;1;2;1;2;3;2;1;2;1;2;1] ++ [7])%N.
Example C37_example :
  run N.eqb [CPattern pat15; CData data34; CFind true; CFind false; CFind true; CData data34; CFind false; CSkip 0; CFind true; CSkip 3] new_finder
  = Ok (snd (match run N.eqb [CPattern pat15; CData data34; CFind true; CFind false; CFind true; CData data34; CFind false; CSkip 0; CFind true; CSkip 3] new_finder with Ok (f, _) => (tt, f) | _ => (tt, new_finder) end),
    [ANone; ANone; AFound (Some 4); AFound (Some 18); AFound None; ANone; AFound (Some 4); ASkipped (Some 19); AFound None; ASkipped None]).
Proof. vm_compute. reflexivity. Qed.

(** ** C38 *)
(** Uninitialised memory delivers a block of the size asked for. *)
Definition delivers (uninit : nat -> list N) : Prop := forall n, length (uninit n) = n.

(** The Alloc variants (growth by realloc), no limit or a limit at least the number of
    occurrences: the result is the text with all leftmost non-overlapping occurrences
    replaced and everything else kept; the return value is their number; the block has
    ExtraAlloc elements more than the text (exactly that many without a limit). *)
Theorem C38_replaces_all : forall eq uninit fuel data pat rep limit grow extra m out n,
  delivers uninit -> memok eq m -> length data < fuel ->
  replaced eq pat rep None data out n -> (match limit with Some l => n <= l | None => True end) ->
  exists rest, ReplaceAll eq uninit true fuel data pat rep limit grow extra m = Ok (out ++ rest, length out, n) /\
    extra <= length rest /\ (limit = None -> length rest = extra).
Proof.
  intros eq uninit fuel data pat rep limit grow extra m out n D M F R L.
  apply ReplaceAll_ok; auto. exact (cut_all eq pat rep None data out n R eq_refl limit L).
Qed.

(** That text exists and is unique, for every limit. *)
Theorem C38_spec_determines : forall eq pat rep k data,
  exists out n, replaced eq pat rep k data out n /\
    forall out' n', replaced eq pat rep k data out' n' -> out' = out /\ n' = n.
Proof.
  intros eq pat rep k data. destruct (replaced_exists eq pat rep (length data) data k (le_n _)) as (out & n & R).
  exists out, n. split; auto. intros out' n' R'. destruct (replaced_fun eq pat rep k data out n R out' n' R'); auto.
Qed.

(** REFUTED with a limit: whenever there are more occurrences than the limit, everything from
    the first occurrence that is not replaced is missing from the result. *)
Theorem C38_limit_drops_tail_refuted : forall eq uninit fuel data pat rep limit grow extra m full n,
  delivers uninit -> memok eq m -> length data < fuel ->
  replaced eq pat rep None data full n -> limit < n ->
  exists out lost rest,
    ReplaceAll eq uninit true fuel data pat rep (Some limit) grow extra m = Ok (out ++ rest, length out, limit) /\
    replaced eq pat rep (Some limit) data (out ++ lost) limit /\ length pat <= length lost /\ pat <> [].
Proof.
  intros eq uninit fuel data pat rep limit grow extra m full n D M F R L.
  destruct (replaced_cut_exists eq pat rep (length data) data (Some limit) (le_n _)) as (out & k & C).
  destruct (cut_loses eq pat rep _ _ _ _ C _ _ R) as (want & lost & W1 & W2 & -> & W4 & W5); [eauto|].
  inversion W2; subst. destruct (ReplaceAll_ok eq uninit D true pat rep data m M (Some k) grow extra fuel out k C F) as (rest & E & _); auto.
  exists out, lost, rest. auto.
Qed.

Definition zeros (n : nat) : list N := repeat 0%N n.
Lemma zeros_delivers : delivers zeros.
Proof. intros n. apply repeat_length. Qed.

(** a-b-a-b-c with ab -> xyz: xyz-xyz-c; with limit 1 the text stops before the second match. *)
Example C38_example :
  ReplaceAll N.eqb zeros true 9 [1;2;1;2;3]%N [1;2]%N [7;8;9]%N None 0 1 true = Ok ([7;8;9;7;8;9;3;0]%N, 7, 2) /\
  match ReplaceAll N.eqb zeros true 9 [1;2;1;2;3]%N [1;2]%N [7;8;9]%N (Some 1) 0 1 true with
  | Ok (b, n, k) => firstn n b = [7;8;9]%N /\ k = 1 | _ => False end /\
  replaced N.eqb [1;2]%N [7;8;9]%N (Some 1) [1;2;1;2;3]%N [7;8;9;1;2;3]%N 1.
Proof.
  split; [vm_compute; reflexivity|]. split; [vm_compute; auto|].
  apply (r_one N.eqb [1;2]%N [7;8;9]%N (Some 1) [1;2;1;2;3]%N 0 [1;2;3]%N 0); cbn; auto; try discriminate.
  - split; [lia|]. split; [|intros; lia]. split; [cbn; lia|]. intros j Hj. cbn in Hj.
    destruct j as [|[|j]]; [reflexivity..|lia].
  - apply r_full.
Qed.

(** ** C39 *)
(** The Alloc variants never read outside a buffer: every input, limit and growth size runs
    to the end. *)
Theorem C39_alloc_variants_safe : forall eq uninit fuel data pat rep limit grow extra m,
  delivers uninit -> memok eq m -> length data < fuel ->
  exists b size n, ReplaceAll eq uninit true fuel data pat rep limit grow extra m = Ok (b, size, n) /\ size + extra <= length b.
Proof.
  intros eq uninit fuel data pat rep limit grow extra m D M F.
  destruct (replaced_cut_exists eq pat rep (length data) data limit (le_n _)) as (out & k & C).
  destruct (ReplaceAll_ok eq uninit D true pat rep data m M limit grow extra fuel out k C F) as (rest & E & L & _); auto.
  do 3 eexists. split; [exact E|]. rewrite app_length. lia.
Qed.

(** The variants with new and memcpy: correct when the result is no longer than the data plus
    the growth size in effect ... *)
Theorem C39_plain_variants_in_room : forall eq uninit fuel data pat rep grow extra m out n,
  delivers uninit -> memok eq m -> length data < fuel ->
  replaced eq pat rep None data out n -> length out <= length data + growth pat rep grow ->
  exists rest, ReplaceAll eq uninit false fuel data pat rep None grow extra m = Ok (out ++ rest, length out, n) /\
    length rest = extra.
Proof.
  intros eq uninit fuel data pat rep grow extra m out n D M F R L.
  destruct (ReplaceAll_ok eq uninit D false pat rep data m M None grow extra fuel out n
    (cut_all eq pat rep None data out n R eq_refl None I) F (or_intror L)) as (rest & E & _ & X); eauto.
Qed.

(** ... so whenever the replacement is not longer than the pattern, or there are at most 50
    occurrences. *)
Theorem C39_plain_variants_fifty : forall eq uninit fuel data pat rep grow extra m out n,
  delivers uninit -> memok eq m -> length data < fuel ->
  replaced eq pat rep None data out n -> length rep <= length pat \/ n <= 50 ->
  exists rest, ReplaceAll eq uninit false fuel data pat rep None grow extra m = Ok (out ++ rest, length out, n) /\
    length rest = extra.
Proof.
  intros eq uninit fuel data pat rep grow extra m out n D M F R L.
  apply (C39_plain_variants_in_room eq uninit fuel data pat rep grow extra m out n); auto.
  pose proof (replaced_length eq pat rep None data out n R) as E.
  destruct (Nat.le_gt_cases (length rep) (length pat)) as [G|G].
  - assert (n * length rep <= n * length pat) by (apply Nat.mul_le_mono_l; auto). lia.
  - destruct L as [L|L]; [lia|].
    assert (n * length rep = n * length pat + n * (length rep - length pat)) by (rewrite <- Nat.mul_add_distr_l; f_equal; lia).
    assert (n * (length rep - length pat) <= 50 * (length rep - length pat)) by (apply Nat.mul_le_mono_r; auto).
    unfold growth. rewrite (proj2 (Nat.ltb_lt _ _) G). cbn [andb].
    destruct (Nat.ltb_spec grow ((length rep - length pat) * 50)); lia.
Qed.

(** REFUTED otherwise: with the default growth size and no limit, the final shrink copies more
    than the old block holds. *)
Theorem C39_plain_variants_refuted : exists data pat rep out n,
  replaced N.eqb pat rep None data out n /\
  ReplaceAll N.eqb zeros false (S (length data)) data pat rep None 1024 1 true = UB.
Proof.
  exists (repeat 1 513 ++ [3;3])%N, [1]%N, [2;2;2]%N.
  destruct (C38_spec_determines N.eqb [1]%N [2;2;2]%N None (repeat 1 513 ++ [3;3])%N) as (out & n & R & _).
  exists out, n. split; [exact R|]. vm_compute. reflexivity.
Qed.

Example C39_example :
  (* 52 occurrences and growth 0 also read outside; 50 do not *)
  ReplaceAll N.eqb zeros false 99 (repeat 1 52 ++ repeat 3 10)%N [1]%N [2;2]%N None 0 1 true = UB /\
  match ReplaceAll N.eqb zeros false 99 (repeat 1 50 ++ repeat 3 10)%N [1]%N [2;2]%N None 0 1 true with
  | Ok (b, n, k) => firstn n b = (repeat 2 100 ++ repeat 3 10)%N /\ k = 50 | _ => False end.
Proof. vm_compute. repeat split; reflexivity. Qed.

(** ** C60 *)
(** Any variant, any destination buffer that does not overlap the data: only the first
    ResultSize elements of the destination are written, they are the replaced text as far as
    it fits, and the count is exact when it fits. *)
Theorem C60_bounded_replace : forall eq uninit alt fuel b data pat rep limit grow extra m out n,
  memok eq m -> length data < fuel ->
  replaced eq pat rep None data out n -> (match limit with Some l => n <= l | None => True end) ->
  exists k, StaticReplaceAll eq uninit alt fuel b data pat rep limit grow extra m =
      Ok (firstn (length b) out ++ skipn (length (firstn (length b) out)) b, length (firstn (length b) out), k) /\
    k <= n /\ (length out <= length b -> k = n).
Proof.
  intros eq uninit alt fuel b data pat rep limit grow extra m out n M F R L.
  apply StaticReplaceAll_ok; auto. exact (cut_all eq pat rep None data out n R eq_refl limit L).
Qed.

(** With a limit that is exceeded the tail is dropped here as well, and nothing worse. *)
Theorem C60_limit_safe : forall eq uninit alt fuel b data pat rep limit grow extra m,
  memok eq m -> length data < fuel ->
  exists out n k, replaced_cut eq pat rep limit data out n /\
    StaticReplaceAll eq uninit alt fuel b data pat rep limit grow extra m =
      Ok (firstn (length b) out ++ skipn (length (firstn (length b) out)) b, length (firstn (length b) out), k) /\ k <= n.
Proof.
  intros eq uninit alt fuel b data pat rep limit grow extra m M F.
  destruct (replaced_cut_exists eq pat rep (length data) data limit (le_n _)) as (out & n & C).
  destruct (StaticReplaceAll_ok eq uninit alt pat rep data m M limit grow extra fuel b out n C F) as (k & E & L & _).
  exists out, n, k. auto.
Qed.

Example C60_example :
  StaticReplaceAll N.eqb zeros false 9 [0;0;0;0;0]%N [1;2;1;2;3]%N [1;2]%N [7;8;9]%N None 0 1 true = Ok ([7;8;9;7;8]%N, 5, 2) /\
  StaticReplaceAll N.eqb zeros false 9 (repeat 5%N 9) [1;2;1;2;3]%N [1;2]%N [7;8;9]%N None 0 1 true = Ok ([7;8;9;7;8;9;3;5;5]%N, 7, 2).
Proof. vm_compute. auto. Qed.

Print Assumptions C37_finds_exactly.
Print Assumptions C37_determinate.
Print Assumptions C37_first.
Print Assumptions C38_replaces_all.
Print Assumptions C38_spec_determines.
Print Assumptions C38_limit_drops_tail_refuted.
Print Assumptions C39_alloc_variants_safe.
Print Assumptions C39_plain_variants_in_room.
Print Assumptions C39_plain_variants_fifty.
Print Assumptions C39_plain_variants_refuted.
Print Assumptions C60_bounded_replace.
Print Assumptions C60_limit_safe.
