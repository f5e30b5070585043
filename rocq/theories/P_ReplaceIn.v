(** Proofs about replacing text inside its own memory. *)
From Verif Require Import Base M_Find S_Find P_Find P_Replace M_ReplaceIn S_ReplaceIn P_WinPath.
Open Scope nat_scope.

Section Proofs.
Variable strict : bool.
Variable pat rep : list N.
Hypothesis shorter : length rep <= length pat.

Notation at_pos := (at_pos N.eqb pat).

Lemma memok_eqb m : memok N.eqb m.
Proof. unfold memok. auto. Qed.

Lemma first_suffix d d' c r : length d' = length d -> c <= length d -> skipn c d' = skipn c d ->
  first_from N.eqb pat d c (option_map (Nat.add c) r) -> first_from N.eqb pat d' c (option_map (Nat.add c) r).
Proof. intros L C E H. apply first_skip; [lia|]. rewrite E. apply first_skip; auto. Qed.

Lemma at_pos_mem d d' f c : at_pos d f c -> length d' = length d -> skipn c d' = skipn c d ->
  at_pos d' (with_mem f d') c.
Proof.
  intros [C H] L E. split; [lia|]. unfold with_mem. destruct H as [(H1 & H2 & H3 & H4 & H5)|[H N]].
  - left. rewrite H2. cbn. rewrite L. unfold fok in *. cbn. tauto.
  - right. split.
    + destruct H as [[H1 H2]|[H1 H2]].
      * left. rewrite H2. split; auto.
      * right. destruct (fdata f); split; auto.
    + destruct N as [N|N]; auto. right. apply (first_suffix d d' c None); auto.
Qed.

(** The state before a search: [out] is the text so far, [tail] the text still to be read,
    [rest] the block behind the text. *)
Definition istate (N0 : nat) (rest tail : list N) (r : ireplacer) (c : nat) (out : list N) : Prop :=
  iend r = N0 /\ isize r = N0 /\ isrc r = c /\ ipos r = length out /\ length out <= c /\
  (exists mid, imem r = out ++ mid ++ tail ++ rest /\ length out + length mid = c) /\ c + length tail = N0 /\
  at_pos (firstn N0 (imem r)) (with_mem (ifind r) (firstn N0 (imem r))) c.

Definition clear (gap n : nat) : Prop := strict = false \/ gap = 0 \/ n <= gap.

Lemma memcpy_clear b dst src n : dst <= src -> clear (src - dst) n -> memcpy_in strict b dst src n = memmove b dst src n.
Proof.
  intros L C. unfold memcpy_in. destruct strict eqn:ST; cbn [andb]; auto.
  destruct (Nat.eqb_spec dst src); cbn [negb andb]; auto.
  destruct (Nat.ltb_spec dst (src + n)); cbn [andb]; auto.
  destruct (Nat.ltb_spec src (dst + n)); auto. exfalso. unfold clear in C. destruct C as [C|C]; [congruence|lia].
Qed.

Lemma memcpy_over b dst src n : strict = true -> dst < src -> src < dst + n -> memcpy_in strict b dst src n = UB.
Proof.
  intros S L1 L2. unfold memcpy_in. rewrite S. cbn [andb].
  rewrite (proj2 (Nat.eqb_neq _ _)) by lia. rewrite (proj2 (Nat.ltb_lt dst _)) by lia. now rewrite (proj2 (Nat.ltb_lt _ _)) by lia.
Qed.

(** What the searcher says in such a state. *)
Definition says (tail : list N) (r : option nat) : Prop :=
  match r with Some i => pat <> [] /\ first_from N.eqb pat tail 0 (Some i)
  | None => pat = [] \/ first_from N.eqb pat tail 0 None end.

Lemma tail_of N0 rest tail r c out : istate N0 rest tail r c out ->
  length (firstn N0 (imem r)) = N0 /\ skipn c (firstn N0 (imem r)) = tail.
Proof.
  intros (_ & _ & _ & _ & _ & (mid & E & L) & T & _). rewrite E. split.
  - rewrite firstn_length, !app_length. lia.
  - rewrite (app_assoc mid), (app_assoc out), firstn_pre.
    + rewrite app_assoc, skipn_pre; auto. rewrite app_length. lia.
    + rewrite !app_length. lia.
Qed.

Lemma IFind_ok N0 rest tail r c out : istate N0 rest tail r c out ->
  exists next, says tail next /\
  let dist := match next with Some i => i | None => length tail end in
  dist <= length tail /\
  (clear (c - length out) dist ->
   exists r' mid', IFindNext strict r = Ok (r', option_map (Nat.add c) next) /\
    iend r' = N0 /\ isize r' = N0 /\ isrc r' = c /\ ipos r' = length out + dist /\
    imem r' = out ++ firstn dist tail ++ mid' ++ skipn dist tail ++ rest /\ length out + length mid' = c /\
    (forall i, next = Some i -> occurs N.eqb pat (firstn N0 (imem r)) (c + i) /\
       searchR (ifind r') (Searching pat (firstn N0 (imem r)) (S (c + i))))) /\
  (strict = true -> length out < c -> c - length out < dist -> IFindNext strict r = UB).
Proof.
  intros HI. destruct (tail_of _ _ _ _ _ _ HI) as [LD TD].
  destruct HI as (H1 & H2 & H3 & H4 & H5 & (mid & H6 & H7) & H8 & H9).
  destruct (find_at N.eqb pat (firstn N0 (imem r)) true (memok_eqb true) _ c H9) as (f' & nx & EF & HF).
  assert (exists next, nx = option_map (Nat.add c) next /\ says tail next) as (next & -> & SY).
  { destruct nx as [i|].
    - destruct HF as (Hp & Hf & _). exists (Some (i - c)). assert (c <= i) by apply Hf. cbn [option_map].
      replace (c + (i - c)) with i by lia. split; auto. cbn [says]. split; auto.
      rewrite <- TD. apply first_skip; [lia|]. cbn [option_map]. now replace (c + (i - c)) with i by lia.
    - exists None. split; auto. cbn [says]. destruct HF as [HF|HF]; auto. right.
      rewrite <- TD. apply first_skip; auto. lia. }
  exists next. split; auto. cbv zeta. set (dist := match next with Some i => i | None => length tail end).
  assert (LT : dist <= length tail).
  { unfold dist. destruct next as [i|]; auto. destruct SY as (_ & (_ & (Ho & _) & _)). lia. }
  assert (ED : match option_map (Nat.add c) next with Some n => n | None => N0 end - c = dist).
  { unfold dist. destruct next; cbn [option_map]; lia. }
  split; auto. unfold IFindNext. rewrite H1, H2, H3, H4, EF. cbn [bind].
  replace (match option_map (Nat.add c) next with Some n => n | None => N0 end - c) with dist by auto.
  rewrite (proj2 (Nat.ltb_ge N0 (length out + dist))) by lia.
  split.
  - intros CL.
    assert (MV : (if (dist =? 0) then Ok (imem r) else memcpy_in strict (imem r) (length out) c dist) =
      Ok (out ++ firstn dist tail ++ firstn (length mid) (skipn dist (mid ++ firstn dist tail)) ++ skipn dist tail ++ rest)).
    { destruct (Nat.eqb_spec dist 0) as [->|Z].
      - cbn [firstn skipn app]. rewrite H6, app_nil_r, firstn_all. reflexivity.
      - rewrite memcpy_clear by auto. rewrite memmove_in by (rewrite H6, !app_length; lia). f_equal. rewrite H6.
        rewrite firstn_pre by auto. f_equal.
        assert (E : skipn c (out ++ mid ++ tail ++ rest) = tail ++ rest).
        { rewrite (app_assoc out). apply skipn_pre. rewrite app_length. lia. }
        rewrite E. rewrite firstn_app. replace (dist - length tail) with 0 by lia. cbn [firstn]. rewrite app_nil_r. f_equal.
        rewrite <- (firstn_skipn dist tail) at 1. rewrite <- (app_assoc (firstn dist tail)).
        assert (LF : length (firstn dist tail) = dist) by (rewrite firstn_length; lia).
        rewrite (app_assoc mid). rewrite skipn_app. rewrite (skipn_all2 out) by lia. cbn [app].
        replace (length out + dist - length out) with dist by lia.
        rewrite skipn_app, app_length, LF. replace (dist - (length mid + dist)) with 0 by lia. cbn [skipn].
        rewrite (firstn_all2 (n := length mid)) by (rewrite skipn_length, app_length; lia).
        reflexivity. }
    rewrite MV. cbn [bind]. eexists _, _. split; [reflexivity|]. cbn.
    repeat match goal with |- _ /\ _ => split; [solve [auto]|] end.
    split.
    { rewrite firstn_length, skipn_length, app_length, firstn_length. lia. }
    intros i ->. cbn [option_map] in HF. destruct HF as (Hp & Hf & HS). split; auto. apply Hf.
  - intros S L1 L2. rewrite (proj2 (Nat.eqb_neq dist 0)) by lia. rewrite memcpy_over; auto. lia.
Qed.

Lemma IReplace_ok N0 rest tail mem0 r c out mid' i : 
  iend r = N0 -> isize r = N0 -> isrc r = c -> length out <= c -> c + length tail = N0 ->
  length mem0 = N0 -> skipn c mem0 = tail ->
  ipos r = length out + i -> i <= length tail ->
  imem r = out ++ firstn i tail ++ mid' ++ skipn i tail ++ rest -> length out + length mid' = c -> pat <> [] ->
  occurs N.eqb pat mem0 (c + i) -> searchR (ifind r) (Searching pat mem0 (S (c + i))) ->
  exists r', IReplace r rep = Ok r' /\
    istate N0 rest (skipn (i + length pat) tail) r' (c + i + length pat) (out ++ firstn i tail ++ rep).
Proof.
  intros H1 H2 H3 H4 H5 LM TM H6 H7 H8 H9 Hp HO HS.
  destruct (skip_at N.eqb pat mem0 (ifind r) (c + i) HS HO Hp) as (f' & ES & HA).
  assert (LO : i + length pat <= length tail) by (destruct HO as [HO _]; lia).
  unfold IReplace. rewrite H1, H2, H6.
  set (mid2 := skipn (length rep) (mid' ++ firstn (length pat) (skipn i tail))).
  assert (LP : length (firstn (length pat) (skipn i tail)) = length pat) by (rewrite firstn_length, skipn_length; lia).
  assert (L2 : length mid2 + length rep = length mid' + length pat) by (unfold mid2; rewrite skipn_length, app_length; lia).
  assert (LI : length (firstn i tail) = i) by (rewrite firstn_length; lia).
  assert (SPLIT : mid' ++ skipn i tail ++ rest = (mid' ++ firstn (length pat) (skipn i tail)) ++ skipn (i + length pat) tail ++ rest).
  { rewrite <- !app_assoc. f_equal. rewrite (app_assoc (firstn _ _)). f_equal.
    rewrite <- (firstn_skipn (length pat) (skipn i tail)) at 1. f_equal. rewrite skipn_skipn. f_equal. lia. }
  assert (MB : (if (length rep =? 0) then Ok (imem r, length out + i)
     else let n := (if (N0 <? length out + i + length rep) then N0 - (length out + i) else length rep) in
       let* s := slice rep 0 n in let* m := blit (imem r) (length out + i) s in Ok (m, length out + i + n)) =
     Ok ((out ++ firstn i tail ++ rep) ++ mid2 ++ skipn (i + length pat) tail ++ rest, length (out ++ firstn i tail ++ rep))).
  { rewrite !app_length, LI. destruct (Nat.eqb_spec (length rep) 0) as [Z|Z].
    - assert (rep = []) as R by (destruct rep; auto; discriminate). f_equal. f_equal; [|lia].
      rewrite H8, SPLIT. unfold mid2. rewrite R. cbn [length skipn]. rewrite app_nil_r, <- !app_assoc. reflexivity.
    - rewrite (proj2 (Nat.ltb_ge _ _)) by lia. cbv zeta. rewrite slice_in by lia. cbn [bind skipn]. rewrite firstn_all.
      rewrite H8, SPLIT. rewrite (app_assoc out). replace (length out + i) with (length (out ++ firstn i tail)) by (rewrite app_length; lia).
      rewrite blit_end by (rewrite !app_length, LP; lia). cbn [bind]. f_equal. f_equal; [|rewrite app_length; lia].
      rewrite (skipn_app (length rep) (mid' ++ firstn (length pat) (skipn i tail))), app_length, LP.
      replace (length rep - (length mid' + length pat)) with 0 by lia. cbn [skipn]. fold mid2. rewrite <- !app_assoc. reflexivity. }
  cbv zeta in *. rewrite MB. cbn [bind]. rewrite ES. eexists. split; [reflexivity|]. unfold istate. cbn.
  assert (LL : length (out ++ firstn i tail ++ rep) = length out + i + length rep) by (rewrite !app_length, LI; lia).
  rewrite Nat.min_l by lia.
  repeat match goal with |- _ /\ _ => split; [solve [auto|lia]|] end.
  split. { exists mid2. split; auto. lia. }
  rewrite skipn_length. split; [lia|].
  apply (at_pos_mem mem0); auto.
  - rewrite firstn_length, !app_length, skipn_length. lia.
  - replace (skipn (c + i + length pat) mem0) with (skipn (i + length pat) tail).
    2:{ rewrite <- TM, skipn_skipn. f_equal. lia. }
    rewrite (app_assoc mid2), (app_assoc (out ++ _)), firstn_pre.
    + rewrite (app_assoc (out ++ _)), skipn_pre; auto. rewrite app_length. lia.
    + rewrite !app_length, skipn_length. rewrite LI. lia.
Qed.

(** The loop: every part may be copied. *)
Lemma loop_in : forall tail out2 n, replaced N.eqb pat rep None tail out2 n ->
  forall N0 rest r c out num fuel, istate N0 rest tail r c out -> length tail < fuel ->
  strict = false \/ apart pat rep (c - length out) tail ->
  exists r' mid, ireplace_loop fuel strict r rep num = Ok (r', num + n) /\
    ipos r' = length (out ++ out2) /\ imem r' = (out ++ out2) ++ mid ++ rest /\ length (out ++ out2) + length mid = N0.
Proof.
  intros tail out2 n H. remember None as k eqn:Ek. induction H as [k tail HN|tail|k tail i out2 n Hr Hp Hf H IH];
    intros N0 rest r c out num fuel HI HFu HC; try discriminate; destruct fuel as [|fuel]; try lia; cbn [ireplace_loop];
    destruct (IFind_ok _ _ _ _ _ _ HI) as (next & SY & LD & OKC & _).
  - assert (next = None) as ->.
    { destruct next as [i|]; auto. destruct SY as [Hp Hf]. destruct HN as [HN|HN]; [contradiction|].
      pose proof (first_from_fun _ _ _ _ _ _ Hf HN). discriminate. }
    destruct OKC as (r' & mid' & E & K1 & K2 & K3 & K4 & K5 & K6 & _).
    { destruct HC as [HC|HC]; [left; auto|]. right. inversion HC; subst; auto.
      exfalso. destruct HN as [HN|HN]; [contradiction|].
      match goal with X : first_from _ _ _ _ (Some _) |- _ => pose proof (first_from_fun _ _ _ _ _ _ X HN); discriminate end. }
    rewrite E. cbn [bind option_map]. exists r', mid'. rewrite Nat.add_0_r. split; auto.
    rewrite firstn_all in K5. rewrite skipn_all in K5. cbn [app] in K5. rewrite app_length, K4, K5, <- app_assoc.
    split; auto. split; auto. destruct HI as (_ & _ & _ & _ & _ & _ & HI & _). lia.
  - assert (next = Some i) as ->.
    { destruct next as [j|].
      - destruct SY as [_ SY]. exact (first_from_fun _ _ _ _ _ _ SY Hf).
      - destruct SY as [SY|SY]; [contradiction|]. pose proof (first_from_fun _ _ _ _ _ _ SY Hf). discriminate. }
    assert (HC' : clear (c - length out) i /\ (strict = false \/ apart pat rep (c - length out + (length pat - length rep)) (skipn (i + length pat) tail))).
    { destruct HC as [HC|HC]; [split; left; auto|]. inversion HC as [g d HN HG|g d j Hp' Hf' HG HA]; subst.
      - exfalso. destruct HN as [HN|HN]; [contradiction|]. pose proof (first_from_fun _ _ _ _ _ _ Hf HN). discriminate.
      - pose proof (first_from_fun _ _ _ _ _ _ Hf Hf') as Q. inversion Q; subst. split; [right|]; auto. }
    destruct (tail_of _ _ _ _ _ _ HI) as [LM TM].
    pose proof HI as (I1 & I2 & I3 & I4 & I5 & _ & I7 & _).
    destruct (OKC (proj1 HC')) as (r' & mid' & E & K1 & K2 & K3 & K4 & K5 & K6 & K7).
    destruct (K7 i eq_refl) as [HO HS].
    rewrite E. cbn [bind option_map].
    destruct (IReplace_ok N0 rest tail (firstn N0 (imem r)) r' c out mid' i) as (r2 & E2 & HI2); auto.
    rewrite E2. cbn [bind].
    assert (LI : length (firstn i tail) = i) by (rewrite firstn_length; lia).
    assert (1 <= length pat) by (destruct pat; cbn; [congruence|lia]).
    assert (LO : i + length pat <= length tail) by (destruct Hf as (_ & (Ho & _) & _); lia).
    assert (Ek2 : less k = None) by (now rewrite Ek). destruct (IH Ek2 N0 rest r2 (c + i + length pat) (out ++ firstn i tail ++ rep) (S num) fuel) as (r3 & mid & E3 & P1 & P2 & P3); auto.
    { rewrite skipn_length. lia. }
    { destruct HC' as [_ [HC'|HC']]; auto. right. rewrite !app_length, LI.
      replace (c + i + length pat - (length out + (i + length rep))) with (c - length out + (length pat - length rep)) by lia. exact HC'. }
    exists r3, mid. replace (num + S n) with (S num + n) by lia. rewrite <- !app_assoc in *. auto.
Qed.

Lemma skip_shorter tail i : pat <> [] -> first_from N.eqb pat tail 0 (Some i) -> length (skipn (i + length pat) tail) < length tail.
Proof.
  intros Hp (_ & (Ho & _) & _). assert (1 <= length pat) by (destruct pat; cbn; [congruence|lia]).
  rewrite skipn_length. lia.
Qed.

(** Some part may not be copied. *)
Lemma loop_over : strict = true -> forall k tail, length tail <= k ->
  forall N0 rest r c out num fuel, istate N0 rest tail r c out -> length tail < fuel ->
  ~ apart pat rep (c - length out) tail -> ireplace_loop fuel strict r rep num = UB.
Proof.
  intros ST. induction k as [|k IH]; intros tail Lk N0 rest r c out num fuel HI HFu NC;
    destruct fuel as [|fuel]; try lia; cbn [ireplace_loop];
    destruct (IFind_ok _ _ _ _ _ _ HI) as (next & SY & LD & OKC & BAD).
  - destruct tail; cbn in Lk; [|lia]. destruct next as [i|].
    + exfalso. destruct SY as [Hp (_ & (Ho & _) & _)]. destruct pat; [congruence|cbn in Ho; lia].
    + exfalso. apply NC. apply a_none; auto. right. cbn. lia.
  - pose proof HI as (I1 & I2 & I3 & I4 & I5 & _ & I7 & _).
    destruct next as [i|].
    + destruct SY as [Hp Hf].
      destruct (le_lt_dec i (c - length out)) as [G|G]; [|destruct (Nat.eq_dec (c - length out) 0) as [G0|G0]];
        [| |rewrite BAD by lia; reflexivity].
      all: assert (CL : clear (c - length out) i) by (right; auto).
      all: destruct (tail_of _ _ _ _ _ _ HI) as [LM TM].
      all: destruct (OKC CL) as (r' & mid' & E & K1 & K2 & K3 & K4 & K5 & K6 & K7).
      all: destruct (K7 i eq_refl) as [HO HS].
      all: rewrite E; cbn [bind option_map].
      all: destruct (IReplace_ok N0 rest tail (firstn N0 (imem r)) r' c out mid' i) as (r2 & E2 & HI2); auto.
      all: rewrite E2; cbn [bind].
      all: assert (LI : length (firstn i tail) = i) by (rewrite firstn_length; lia).
      all: pose proof (skip_shorter tail i Hp Hf).
      all: apply (IH (skipn (i + length pat) tail) ltac:(lia) N0 rest r2 (c + i + length pat) (out ++ firstn i tail ++ rep)); auto; try lia.
      all: intros HA; apply NC; apply (a_one pat rep _ _ i); auto.
      all: rewrite !app_length, LI in HA.
      all: replace (c + i + length pat - (length out + (i + length rep))) with (c - length out + (length pat - length rep)) in HA by lia; exact HA.
    + destruct (le_lt_dec (length tail) (c - length out)) as [G|G]; [|destruct (Nat.eq_dec (c - length out) 0) as [G0|G0]].
      1,2: exfalso; apply NC; apply a_none; auto.
      rewrite BAD by lia. reflexivity.
Qed.

Lemma start_in f text rest : SetPattern N.eqb new_finder pat = Ok f ->
  istate (length text) rest text (ISetData f (text ++ rest) (length text)) 0 [].
Proof.
  intros E. unfold istate, ISetData. cbn [iend isize isrc ipos imem ifind length].
  repeat match goal with |- _ /\ _ => split; [solve [auto|lia]|] end.
  split. { exists []. auto. }
  split; auto. rewrite firstn_pre by auto.
  apply (at_pos_mem text); auto. apply (start N.eqb pat text f E).
Qed.

Lemma in_place_ok text rest out n : replaced N.eqb pat rep None text out n ->
  strict = false \/ apart pat rep 0 text ->
  exists mid, ReplaceInPlace strict (text ++ rest) (length text) pat rep = Ok (out ++ mid ++ rest, length out, n) /\
    length out + length mid = length text.
Proof.
  intros R C. unfold ReplaceInPlace. destruct (setpattern_total N.eqb pat) as (f & E). rewrite E. cbn [bind].
  destruct (loop_in text out n R (length text) rest _ 0 [] 0 (S (length text)) (start_in f text rest E)) as (r' & mid & E' & P1 & P2 & P3); auto.
  rewrite E'. cbn [bind]. exists mid. cbn [app] in *. rewrite P1, P2. auto.
Qed.

Lemma in_place_ub text rest : strict = true -> ~ apart pat rep 0 text ->
  ReplaceInPlace strict (text ++ rest) (length text) pat rep = UB.
Proof.
  intros ST C. unfold ReplaceInPlace. destruct (setpattern_total N.eqb pat) as (f & E). rewrite E. cbn [bind].
  rewrite (loop_over ST (length text) text (le_n _) (length text) rest _ 0 [] 0 (S (length text)) (start_in f text rest E)); auto.
Qed.
End Proofs.
