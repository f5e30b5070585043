(** Proofs about files. *)
From Verif Require Import Base S_File M_File P_HashFn.
Open Scope N_scope.
Local Arguments N.pow : simpl never.
Local Arguments W64 : simpl never.

Lemma overwrite_length c p d : p <= N.of_nat (length c) ->
  length (overwrite c p d) = Nat.max (length c) (N.to_nat p + length d).
Proof. intro H. unfold overwrite. rewrite !app_length, firstn_length, skipn_length. lia. Qed.

Lemma overwrite_nil c p : overwrite c p [] = c.
Proof. unfold overwrite. cbn. rewrite Nat.add_0_r. apply firstn_skipn. Qed.

Lemma overwrite_app c p x y : p <= N.of_nat (length c) ->
  overwrite (overwrite c p x) (p + N.of_nat (length x)) y = overwrite c p (x ++ y).
Proof.
  intro H. unfold overwrite. replace (N.to_nat (p + N.of_nat (length x))) with (N.to_nat p + length x)%nat by lia.
  set (q := N.to_nat p) in *. assert (Hq : (q <= length c)%nat) by lia. clearbody q.
  assert (E : length (firstn q c) = q) by (rewrite firstn_length; lia).
  rewrite (app_assoc (firstn q c) x), firstn_app, firstn_all2 by (rewrite app_length; lia).
  replace (q + length x - length (firstn q c ++ x))%nat with O by (rewrite app_length; lia).
  cbn [firstn]. rewrite app_nil_r, <- !app_assoc. f_equal. f_equal. f_equal.
  rewrite !skipn_app, E, (skipn_all2 (firstn q c)), (skipn_all2 x) by lia. cbn [app].
  rewrite skipn_skipn. f_equal. rewrite app_length. lia.
Qed.

Lemma firstn_plus {A} k m (l : list A) : firstn (k + m) l = firstn k l ++ firstn m (skipn k l).
Proof. revert l. induction k as [|k IH]; intros [|x l]; cbn; [reflexivity|reflexivity|rewrite firstn_nil; reflexivity|]. f_equal. apply IH. Qed.

Lemma firstn_own {A} n (l : list A) : firstn (length (firstn n l)) l = firstn n l.
Proof. revert l. induction n as [|n IH]; intros [|x l]; cbn; [reflexivity|reflexivity|reflexivity|]. f_equal. apply IH. Qed.

Section Env.
Variables er ew : nat -> ev.

(** ** Writing *)
Lemma sys_write_part d b k : off d <= N.of_nat (length (data d)) -> ew (used d) = Part k ->
  sys_write ew d b = (Disk (overwrite (data d) (off d) (firstn k b)) (off d + N.of_nat (length (firstn k b))) (S (used d)),
                      Some (Some (length (firstn k b)))).
Proof.
  intros H E. unfold sys_write. rewrite E. replace (N.to_nat (off d) - length (data d))%nat with O by lia. reflexivity.
Qed.

Lemma write_loop_ok fuel : (forall k, ew k <> Intr) -> forall d b i left,
  off d <= N.of_nat (length (data d)) -> (i + left = length b)%nat ->
  match write_loop ew fuel d b i left with
  | UB => False
  | Fuel => True
  | Ok (d', ok, n) => exists m, n = (i + m)%nat /\ (m <= left)%nat /\ (ok = true -> m = left) /\
      data d' = overwrite (data d) (off d) (firstn m (skipn i b)) /\ off d' = off d + N.of_nat m
  end.
Proof.
  intro He. induction fuel as [|g IH]; intros d b i left Hd Hb; [exact I|]. cbn [write_loop].
  destruct (ew (used d)) as [k| |] eqn:Ee.
  - rewrite (sys_write_part d _ k Hd Ee). rewrite firstn_firstn.
    assert (L : length (firstn (Nat.min k left) (skipn i b)) = Nat.min k left)
      by (rewrite firstn_length, skipn_length; lia).
    rewrite L. destruct (Nat.eqb_spec (left - Nat.min k left) 0) as [E|E].
    + exists left. replace (Nat.min k left) with left by lia. split; [reflexivity|]. split; [lia|]. split; [reflexivity|]. split; reflexivity.
    + replace (Nat.min k left) with k in * by lia.
      match goal with |- context [write_loop ew g ?d1 b ?i1 ?l1] => specialize (IH d1 b i1 l1) end.
      cbn [data off] in IH. rewrite overwrite_length, L in IH by exact Hd. specialize (IH ltac:(lia) ltac:(lia)).
      destruct (write_loop ew g _ b _ _) as [[[d' ok] n]| |]; [|exact IH|exact I].
      destruct IH as (m & Hn & Hm & Hok & Hdat & Hoff).
      exists (k + m)%nat. split; [lia|]. split; [lia|]. split; [intro Ht; specialize (Hok Ht); lia|].
      split; [|lia]. rewrite Hdat. replace (N.of_nat k) with (N.of_nat (length (firstn k (skipn i b)))) by (rewrite L; reflexivity).
      rewrite overwrite_app by exact Hd. f_equal.
      rewrite firstn_plus, skipn_skipn. do 3 f_equal. lia.
  - exfalso. exact (He _ Ee).
  - unfold sys_write. rewrite Ee. exists O. split; [lia|]. split; [lia|]. split; [discriminate|].
    cbn [tick data off firstn]. rewrite overwrite_nil. split; [reflexivity|lia].
Qed.

(** With interruptions nothing is known about the bytes, but positions do not run ahead. *)
Lemma write_loop_bounds fuel : forall d b i left,
  off d <= N.of_nat (length (data d)) -> (i + left = length b)%nat ->
  match write_loop ew fuel d b i left with
  | UB => True
  | Fuel => True
  | Ok (d', ok, n) => (ok = true -> n = length b) /\ (n <= length b)%nat /\ (length (data d) <= length (data d'))%nat /\
      off d' <= N.of_nat (length (data d')) /\ off d <= off d' /\ off d + N.of_nat n <= off d' + N.of_nat i
  end.
Proof.
  induction fuel as [|g IH]; intros d b i left Hd Hb; [exact I|]. cbn [write_loop].
  destruct (ew (used d)) as [k| |] eqn:Ee.
  - rewrite (sys_write_part d _ k Hd Ee). rewrite firstn_firstn.
    assert (L : length (firstn (Nat.min k left) (skipn i b)) = Nat.min k left)
      by (rewrite firstn_length, skipn_length; lia).
    rewrite L. destruct (Nat.eqb_spec (left - Nat.min k left) 0) as [E|E].
    + cbn [data off]. rewrite overwrite_length, L by exact Hd. lia.
    + match goal with |- context [write_loop ew g ?d1 b ?i1 ?l1] => specialize (IH d1 b i1 l1) end.
      cbn [data off] in IH. rewrite overwrite_length, L in IH by exact Hd. specialize (IH ltac:(lia) ltac:(lia)).
      destruct (write_loop ew g _ b _ _) as [[[d' ok] n]| |]; [|exact I|exact I]. lia.
  - unfold sys_write. rewrite Ee. destruct i as [|j]; [exact I|].
    specialize (IH (tick d) b j (S left)). cbn [tick data off] in IH. specialize (IH Hd ltac:(lia)).
    fold (tick d) in *. destruct (write_loop ew g _ b _ _) as [[[d' ok] n]| |]; [|exact I|exact I]. lia.
  - unfold sys_write. rewrite Ee. cbn [tick data off]. split; [discriminate|]. lia.
Qed.

(** ** Reading *)
Lemma read_loop_ok fuel : forall d n,
  match read_loop er fuel d n with
  | UB => False
  | Fuel => True
  | Ok (d', r) => data d' = data d /\
      match r with
      | None => off d' = off d
      | Some b => (length b <= n)%nat /\ b = firstn (length b) (skipn (N.to_nat (off d)) (data d)) /\
          (b = [] -> n = O \/ (length (data d) <= N.to_nat (off d))%nat) /\ off d' = off d + N.of_nat (length b)
      end
  end.
Proof.
  induction fuel as [|g IH]; intros d n; [exact I|]. cbn [read_loop]. unfold sys_read.
  destruct (er (used d)) as [k| |].
  - cbn [data off]. split; [reflexivity|]. split; [rewrite firstn_length; lia|]. split.
    + symmetry. apply firstn_own.
    + split; [|reflexivity]. intro H. apply (f_equal (@length N)) in H. cbn [length] in H.
      rewrite firstn_length, skipn_length in H. lia.
  - specialize (IH (tick d) n). cbn [tick data off] in IH. exact IH.
  - cbn [tick data off]. split; reflexivity.
Qed.

(** ** The file follows the specification *)
Definition sync (r w : bool) (f : file) (d : disk) (a : afile) : Prop :=
  opened f = true /\ reads f = r /\ writes f = w /\ data d = content a /\ off d = apos a /\
  curr f = apos a /\ max f = size a /\ apos a <= size a /\ size a < 2 ^ 62.

Definition no_wrap (a : afile) (o : fop) : Prop :=
  match o with FSeek Forward k => apos a + k < W64 | _ => True end.

Definition W64_val : W64 = 18446744073709551616 := eq_refl.
Definition P62_val : 2 ^ 62 = 4611686018427387904 := eq_refl.

Lemma w64_small n : n < W64 -> w64 n = n.
Proof. apply N.mod_small. Qed.

Lemma sub64_le a b : b <= a -> sub64 a b = a - b.
Proof. intro H. unfold sub64. destruct (N.leb_spec b a); [reflexivity|lia]. Qed.

Lemma seek_ok f d a rr ww w k : sync rr ww f d a -> fvalid a (FSeek w k) -> no_wrap a (FSeek w k) ->
  exists f' d', Seek f d w k = (f', d', true) /\ sync rr ww f' d' (AFile (content a) (target a w k)).
Proof.
  intros (H1 & H2 & H3 & H4 & H5 & H6 & H7 & H8 & H9) Hv Hn. unfold Seek. rewrite H1, H6, H7. cbn [negb].
  set (t := match w with FromStart => _ | FromEnd => _ | Forward => _ | Backward => _ end).
  assert (Ht : t = target a w k).
  { unfold t. cbn [fvalid no_wrap] in *. destruct w; cbn [target].
    - destruct (N.leb_spec k (size a)); lia.
    - destruct (N.leb_spec k (size a)); lia.
    - rewrite w64_small by exact Hn. destruct (N.leb_spec (apos a + k) (size a)); lia.
    - destruct (N.leb_spec k (apos a)); lia. }
  rewrite Ht. do 2 eexists. split; [reflexivity|].
  unfold sync. cbn [opened reads writes curr max data off content apos]. unfold size in *. cbn [content] in *.
  do 7 (split; [congruence || reflexivity|]). split; [|exact H9]. unfold target, size. destruct w; lia.
Qed.

Lemma read_ok fuel f d a ww n : sync true ww f d a -> fvalid a (FRead n) ->
  match Read er fuel f d n with
  | UB => False
  | Fuel => True
  | Ok (f', d', ok, b) => exists a', fstep a (FRead n) (ABytes ok b) a' /\ sync true ww f' d' a'
  end.
Proof.
  intros HS Hv. pose proof HS as (H1 & H2 & H3 & H4 & H5 & H6 & H7 & H8 & H9).
  unfold Read, UpdateMaxPos. rewrite H1, H2. cbn [negb orb fst].
  assert (Hup : File true true (writes f) (curr f) (N.of_nat (length (data d))) = f).
  { destruct f; cbn in *. subst. rewrite H4. fold (size a). congruence. }
  rewrite Hup.
  match goal with |- context [if ?c then f else f] => replace (if c then f else f) with f by (destruct c; reflexivity) end.
  rewrite H7, H6, sub64_le by exact H8.
  set (n1 := if size a - apos a <? n then _ else n).
  assert (Hn1 : n1 = N.min n (size a - apos a)).
  { unfold n1. destruct (N.ltb_spec (size a - apos a) n); [|lia]. lia. }
  rewrite Hn1. destruct (N.eqb_spec (N.min n (size a - apos a)) 0) as [E|E].
  - exists a. split; [|exact HS].
    replace a with (AFile (content a) (apos a + N.of_nat (length (@nil N)))) at 2 by (destruct a; cbn; f_equal; lia).
    constructor; [cbn; lia|reflexivity|intros _; lia].
  - pose proof (read_loop_ok fuel d (N.to_nat (N.min n (size a - apos a)))) as L.
    destruct (read_loop er fuel d _) as [[d1 r]| |]; [|exact L|exact I]. cbn [bind]. destruct L as [L1 L2].
    destruct r as [b|].
    + destruct L2 as (L2 & L3 & L4 & L5). rewrite w64_small by (rewrite P62_val, W64_val in *; lia).
      exists (AFile (content a) (apos a + N.of_nat (length b))). split.
      * constructor; [lia| |].
        -- rewrite H5, H4 in L3. exact L3.
        -- intro Hb. specialize (L4 Hb). rewrite H4, H5 in L4. unfold size in *. lia.
      * unfold sync. cbn [opened reads writes curr max data off content apos]. unfold size in *. cbn [content].
        do 7 (split; [congruence || lia|]). split; [lia|exact H9].
    + exists a. split; [constructor|]. unfold sync. rewrite L1, L2. repeat (split; [assumption|]). assumption.
Qed.

Lemma write_ok fuel f d a rr x : (forall k, ew k <> Intr) -> sync rr true f d a -> fvalid a (FWrite x) ->
  match Write ew fuel f d x with
  | UB => False
  | Fuel => True
  | Ok (f', d', ok, n) =>
      n <= N.of_nat (length x) /\ data d' = overwrite (content a) (apos a) (firstn (N.to_nat n) x) /\ off d' = apos a + n /\
      (ok = true -> n = N.of_nat (length x) /\ sync rr true f' d' (AFile (overwrite (content a) (apos a) x) (apos a + N.of_nat (length x)))) /\
      (ok = false -> f' = f)
  end.
Proof.
  intros He HS Hv. pose proof HS as (H1 & H2 & H3 & H4 & H5 & H6 & H7 & H8 & H9).
  unfold Write. rewrite H1, H3. cbn [negb orb].
  destruct (Nat.eqb_spec (length x) 0) as [E|E].
  - destruct x; [|discriminate E]. cbn [length firstn N.of_nat N.to_nat]. rewrite overwrite_nil, N.add_0_r.
    split; [lia|]. split; [exact H4|]. split; [exact H5|]. split; [|discriminate]. intros _. split; [reflexivity|].
    destruct a; exact HS.
  - assert (Ho : off d <= N.of_nat (length (data d))) by (rewrite H5, H4; exact H8).
    pose proof (write_loop_ok fuel He d x 0 (length x) Ho eq_refl) as L.
    destruct (write_loop ew fuel d x 0 (length x)) as [[[d1 ok] n]| |]; [|exact L|exact I]. cbn [bind].
    destruct L as (m & Hm & Hl & Hok & Hdat & Hoff). cbn [Nat.add skipn] in Hm, Hdat. subst n.
    rewrite H4, H5 in Hdat. rewrite H5 in Hoff. destruct ok.
    + specialize (Hok eq_refl). subst m. rewrite Nat2N.id. split; [lia|]. split; [exact Hdat|]. split; [exact Hoff|].
      split; [|discriminate]. intros _. split; [reflexivity|]. rewrite firstn_all in Hdat.
      cbn [fvalid] in Hv. rewrite H6, H7. rewrite w64_small by (rewrite P62_val, W64_val in *; lia).
      unfold sync. cbn [opened reads writes curr max data off content apos]. unfold size in *. cbn [content].
      rewrite overwrite_length by exact H8.
      do 6 (split; [assumption || reflexivity|]). split; [|lia].
      destruct (N.ltb_spec (N.of_nat (length (content a))) (apos a + N.of_nat (length x))); lia.
    + rewrite Nat2N.id. split; [lia|]. split; [exact Hdat|]. split; [exact Hoff|]. split; [discriminate|reflexivity].
Qed.
End Env.

(** ** Games *)
Section Games.
Variables er ew : nat -> ev.

(** For any number of further operations the answers and the file are those of the
    specification, as long as no write fails. *)
Fixpoint tracks (n : nat) (f : file) (d : disk) (a : afile) : Prop :=
  data d = content a /\ curr f = apos a /\ max f = size a /\ apos a <= size a /\
  match n with
  | O => True
  | S m => forall o, fvalid a o -> no_wrap a o -> forall fuel,
      match fexec er ew fuel f d o with
      | UB => False
      | Fuel => True
      | Ok (f', d', x) => exists a', fstep a o x a' /\ tracks m f' d' a'
      end
  end.

Lemma tracks_ok n : (forall k, ew k <> Intr) -> (forall k, ew k <> Fail) -> forall f d a, sync true true f d a -> tracks n f d a.
Proof.
  intros He Hf. induction n as [|n IH]; intros f d a HS; pose proof HS as (H1 & H2 & H3 & H4 & H5 & H6 & H7 & H8 & H9);
    cbn [tracks]; (split; [exact H4|]; split; [exact H6|]; split; [exact H7|]; split; [exact H8|]); [exact I|].
  intros o Hv Hw fuel. destruct o as [w k|r|x]; cbn [fexec].
  - destruct (seek_ok f d a _ _ w k HS Hv Hw) as (f' & d' & E & HS'). rewrite E.
    eexists. split; [constructor|]. apply IH. exact HS'.
  - pose proof (read_ok er fuel f d a _ r HS Hv) as L. destruct (Read er fuel f d r) as [[[[f' d'] ok] b]| |]; [|exact L|exact I].
    cbn [bind]. destruct L as (a' & L1 & L2). exists a'. split; [exact L1|]. apply IH. exact L2.
  - pose proof (write_ok ew fuel f d a _ x He HS Hv) as L.
    assert (Hno : forall f' d' n', Write ew fuel f d x <> Ok (f', d', false, n')).
    { intros f' d' n'. unfold Write. rewrite H1, H3. cbn [negb orb]. destruct (length x =? 0)%nat; [discriminate|].
      assert (W : forall g d b i left d1 i1, write_loop ew g d b i left <> Ok (d1, false, i1)).
      { clear - He Hf. induction g as [|g IH]; intros d b i left d1 i1; [discriminate|]. cbn [write_loop]. unfold sys_write.
        pose proof (He (used d)). pose proof (Hf (used d)). destruct (ew (used d)); [|congruence|congruence].
        destruct (_ =? _)%nat; [discriminate|apply IH]. }
      pose proof (W fuel d x O (length x)) as W1.
      destruct (write_loop ew fuel d x 0 (length x)) as [[[d1 ok] i1]| |]; [|discriminate|discriminate].
      cbn [bind]. destruct ok; [discriminate|]. exfalso. exact (W1 _ _ eq_refl). }
    destruct (Write ew fuel f d x) as [[[[f' d'] ok] n']| |]; [|exact L|exact I]. cbn [bind].
    destruct ok; [|exfalso; exact (Hno _ _ _ eq_refl)].
    destruct L as (_ & _ & _ & L & _). destruct (L eq_refl) as [-> L2].
    eexists. split; [constructor|]. apply IH. exact L2.
Qed.

(** Positions stay inside the file whatever the system calls do. *)
Definition inside (f : file) (d : disk) : Prop :=
  curr f <= max f /\ max f <= N.of_nat (length (data d)).

Definition room (d : disk) (o : fop) : Prop :=
  match o with
  | FSeek _ k => k < W64
  | FRead n => n < W64
  | FWrite x => N.of_nat (length (data d)) + N.of_nat (length x) < 2 ^ 62
  end.

Definition read_small (f : file) (d : disk) (o : fop) (x : fans) : Prop :=
  match o, x with
  | FRead n, ABytes _ b => N.of_nat (length b) <= n /\ curr f + N.of_nat (length b) <= N.of_nat (length (data d))
  | _, _ => True
  end.

Fixpoint stays (n : nat) (f : file) (d : disk) : Prop :=
  inside f d /\
  match n with
  | O => True
  | S m => forall o, room d o -> forall fuel f' d' x, fexec er ew fuel f d o = Ok (f', d', x) ->
      read_small f d o x /\ (N.of_nat (length (data d')) < 2 ^ 62 -> stays m f' d')
  end.

Definition binv (f : file) (d : disk) : Prop :=
  inside f d /\ curr f <= off d /\ off d <= N.of_nat (length (data d)) /\ N.of_nat (length (data d)) < 2 ^ 62.

Lemma stays_ok n : forall f d, binv f d -> stays n f d.
Proof.
  induction n as [|n IH]; intros f d HB; pose proof HB as ((B1 & B2) & B3 & B4 & B5); cbn [stays]; (split; [split; assumption|]); [exact I|].
  intros o Hr fuel f' d' x E. destruct o as [w k|r|b]; cbn [fexec] in E.
  - unfold Seek in E. destruct (opened f) eqn:Eo; cbn [negb] in E.
    + set (t := match w with FromStart => _ | FromEnd => _ | Forward => _ | Backward => _ end) in E.
      injection E as <- <- <-. split; [exact I|]. intros _. apply IH.
      assert (Ht : t <= max f).
      { unfold t. clear - B1. destruct w.
        - destruct (N.leb_spec k (max f)); lia.
        - destruct (N.leb_spec k (max f)); lia.
        - destruct (N.leb_spec (w64 (curr f + k)) (max f)); lia.
        - destruct (N.leb_spec k (curr f)); lia. }
      clearbody t. unfold binv, inside. cbn [curr max off data]. lia.
    + injection E as <- <- <-. split; [exact I|]. intros _. apply IH. exact HB.
  - unfold Read, UpdateMaxPos in E. destruct (opened f) eqn:Eo; cbn [negb orb] in E;
      [|injection E as <- <- <-; split; [cbn; lia|]; intros _; apply IH; exact HB].
    destruct (reads f) eqn:Er; cbn [negb orb] in E;
      [|injection E as <- <- <-; split; [cbn; lia|]; intros _; apply IH; exact HB].
    cbn [fst] in E. rewrite (sub64_le (max f) (curr f)) in E by exact B1.
    set (f1 := if max f - curr f <? r then _ else f) in E.
    assert (C1 : curr f1 = curr f) by (unfold f1; destruct (_ <? _); reflexivity).
    assert (C2 : max f1 = if max f - curr f <? r then N.of_nat (length (data d)) else max f) by (unfold f1; destruct (_ <? _); reflexivity).
    set (n1 := if max f - curr f <? r then _ else r) in E.
    assert (C3 : n1 <= r /\ curr f + n1 <= max f1 /\ max f1 <= N.of_nat (length (data d))).
    { unfold n1. rewrite C2, C1. destruct (N.ltb_spec (max f - curr f) r); [|lia]. rewrite sub64_le by lia.
      destruct (N.ltb_spec (N.of_nat (length (data d)) - curr f) r); lia. }
    clearbody n1 f1. destruct (n1 =? 0).
    + cbn [bind] in E. injection E as <- <- <-. split; [cbn; lia|]. intros _. apply IH. unfold binv, inside. lia.
    + pose proof (read_loop_ok er fuel d (N.to_nat n1)) as L.
      destruct (read_loop er fuel d (N.to_nat n1)) as [[d1 o1]| |]; [|discriminate E|discriminate E]. cbn [bind] in E.
      destruct L as [L1 L2]. destruct o1 as [y|].
      * destruct L2 as (L2 & L3 & _ & L5). cbn [bind] in E. injection E as <- <- <-. split; [cbn [read_small]; lia|].
        intros _. apply IH. apply (f_equal (@length N)) in L3. rewrite firstn_length, skipn_length in L3.
        unfold binv, inside. cbn [curr max]. rewrite L1, L5. rewrite w64_small by (rewrite P62_val, W64_val in *; lia). lia.
      * cbn [bind] in E. injection E as <- <- <-. split; [cbn; lia|]. intros _. apply IH.
        unfold binv, inside. rewrite L1, L2. lia.
  - split; [exact I|]. intro Hsm. apply IH. unfold Write in E.
    destruct (opened f) eqn:Eo; cbn [negb orb] in E; [|injection E as <- <- <-; exact HB].
    destruct (writes f) eqn:Ew; cbn [negb orb] in E; [|injection E as <- <- <-; exact HB].
    destruct (length b =? 0)%nat; [injection E as <- <- <-; exact HB|].
    pose proof (write_loop_bounds ew fuel d b 0 (length b) B4 eq_refl) as L.
    destruct (write_loop ew fuel d b 0 (length b)) as [[[d1 ok] i]| |]; [|discriminate E|discriminate E].
    destruct L as (L1 & L2 & L3 & L4 & L5 & L6). cbn [room] in Hr.
    destruct ok; cbn [bind] in E; injection E as <- <- <-; unfold binv, inside; cbn [curr max].
    + rewrite w64_small by (rewrite P62_val, W64_val in *; lia).
      destruct (N.ltb_spec (max f) (curr f + N.of_nat i)); lia.
    + lia.
Qed.
End Games.

(** ** Enough fuel *)
(** In any [p] consecutive calls one transfers a byte or fails. *)
Definition lively (p : nat) (e : nat -> ev) : Prop :=
  forall k, exists j, (j < p)%nat /\ match e (k + j)%nat with Part (S _) => True | Fail => True | _ => False end.

Lemma read_loop_ends p er : (forall k, exists j, (j < p)%nat /\ er (k + j)%nat <> Intr) -> forall d n,
  read_loop er p d n <> Fuel.
Proof.
  intros He d n. destruct (He (used d)) as (j & Hj & Ej).
  revert p d Hj Ej He. induction j as [|j IH]; intros p d Hj Ej He.
  - destruct p as [|p]; [lia|]. cbn [read_loop]. unfold sys_read. rewrite Nat.add_0_r in Ej.
    destruct (er (used d)); [discriminate|congruence|discriminate].
  - destruct p as [|p]; [lia|]. cbn [read_loop]. unfold sys_read.
    destruct (er (used d)) eqn:E; [discriminate| |discriminate].
    assert (G : forall p d, (j < p)%nat -> er (used d + j)%nat <> Intr -> read_loop er p d n <> Fuel).
    { clear - n. intros p d. revert p d. induction j as [|j IH]; intros p d Hj Ej.
      - destruct p as [|p]; [lia|]. cbn [read_loop]. unfold sys_read. rewrite Nat.add_0_r in Ej.
        destruct (er (used d)); [discriminate|congruence|discriminate].
      - destruct p as [|p]; [lia|]. cbn [read_loop]. unfold sys_read.
        destruct (er (used d)) eqn:E; [discriminate| |discriminate].
        apply (IH p (tick d)); [lia|]. cbn [tick used]. replace (S (used d) + j)%nat with (used d + S j)%nat by lia. exact Ej. }
    apply G; [lia|]. cbn [tick used]. replace (S (used d) + j)%nat with (used d + S j)%nat by lia. exact Ej.
Qed.

Lemma write_loop_ends p ew : (forall k, ew k <> Intr) -> lively p ew -> forall m d b i left fuel,
  off d <= N.of_nat (length (data d)) -> (i + left = length b)%nat -> (left <= m)%nat -> (p * m <= fuel)%nat -> (0 < left)%nat ->
  write_loop ew fuel d b i left <> Fuel.
Proof.
  intros Hi He. induction m as [|m IH]; intros d b i left fuel Hd Hb Hl Hf H0; [lia|].
  destruct (He (used d)) as (j & Hj & Ej).
  assert (Hf2 : (j + 1 + p * m <= fuel)%nat) by (rewrite Nat.mul_succ_r in Hf; lia). clear Hf Hj.
  revert fuel d Hd Ej Hf2. induction j as [|j IHj]; intros fuel d Hd Ej Hf2; (destruct fuel as [|fuel]; [lia|]); cbn [write_loop].
  - rewrite Nat.add_0_r in Ej. destruct (ew (used d)) as [[|k]| |] eqn:E; [contradiction| |contradiction|unfold sys_write; rewrite E; discriminate].
    rewrite (sys_write_part ew d _ (S k) Hd E), firstn_firstn.
    assert (L : length (firstn (Nat.min (S k) left) (skipn i b)) = Nat.min (S k) left)
      by (rewrite firstn_length, skipn_length; lia).
    rewrite L. destruct (Nat.eqb_spec (left - Nat.min (S k) left) 0) as [Z|Z]; [discriminate|].
    apply IH; cbn [data off]; [rewrite overwrite_length, L by exact Hd; lia|lia|lia|lia|lia].
  - destruct (ew (used d)) as [k| |] eqn:E; [|exfalso; exact (Hi _ E)|unfold sys_write; rewrite E; discriminate].
    rewrite (sys_write_part ew d _ k Hd E), firstn_firstn.
    assert (L : length (firstn (Nat.min k left) (skipn i b)) = Nat.min k left)
      by (rewrite firstn_length, skipn_length; lia).
    rewrite L. destruct (Nat.eqb_spec (left - Nat.min k left) 0) as [Z|Z]; [discriminate|].
    destruct k as [|k].
    + cbn [Nat.min] in *. rewrite Nat.add_0_r, Nat.sub_0_r.
      apply IHj; cbn [data off used].
      * rewrite overwrite_length, L by exact Hd. lia.
      * replace (S (used d) + j)%nat with (used d + S j)%nat by lia. exact Ej.
      * lia.
    + apply IH; cbn [data off]; [rewrite overwrite_length, L by exact Hd; lia|lia|lia|lia|lia].
Qed.

(** ** Copying *)
Lemma read_exact er fuel f d a ww n : (forall k, exists j, er k = Part j /\ (N.to_nat n <= j)%nat) -> sync true ww f d a -> n < W64 -> n <> 0 ->
  exists f' d', Read er (S fuel) f d n = Ok (f', d', true, firstn (N.to_nat n) (skipn (N.to_nat (apos a)) (content a))) /\
    sync true ww f' d' (AFile (content a) (apos a + N.of_nat (length (firstn (N.to_nat n) (skipn (N.to_nat (apos a)) (content a)))))).
Proof.
  intros He HS Hv Hn0. pose proof (read_ok er (S fuel) f d a _ n HS Hv) as L.
  assert (E : exists f' d', Read er (S fuel) f d n = Ok (f', d', true, firstn (N.to_nat n) (skipn (N.to_nat (apos a)) (content a)))).
  { destruct HS as (H1 & H2 & H3 & H4 & H5 & H6 & H7 & H8 & H9). unfold Read, UpdateMaxPos. rewrite H1, H2. cbn [negb orb fst].
    assert (Hup : File true true (writes f) (curr f) (N.of_nat (length (data d))) = f).
    { destruct f; cbn in *. subst. rewrite H4. fold (size a). congruence. }
    rewrite Hup.
    match goal with |- context [if ?c then f else f] => replace (if c then f else f) with f by (destruct c; reflexivity) end.
    rewrite H7, H6, sub64_le by exact H8.
    set (n1 := if size a - apos a <? n then _ else n).
    assert (Hn1 : n1 = N.min n (size a - apos a)).
    { unfold n1. destruct (N.ltb_spec (size a - apos a) n); [|lia]. lia. }
    rewrite Hn1. destruct (N.eqb_spec (N.min n (size a - apos a)) 0) as [E|E].
    - rewrite skipn_all2 by (unfold size in *; lia). rewrite firstn_nil. do 2 eexists. reflexivity.
    - cbn [read_loop]. unfold sys_read. destruct (He (used d)) as (j & -> & Hj). cbn [bind].
      do 2 eexists. do 2 f_equal. rewrite H4, H5.
      destruct (Nat.le_ge_cases (N.to_nat n) (length (content a) - N.to_nat (apos a))) as [Hle|Hge].
      + f_equal. unfold size in *. lia.
      + rewrite !firstn_all2; [reflexivity| |]; rewrite skipn_length; unfold size in *; lia. }
  destruct E as (f' & d' & E). rewrite E in L. destruct L as (a' & L1 & L2). exists f', d'. split; [exact E|].
  inversion L1; subst. exact L2.
Qed.

Lemma write_all ew p fuel f d a rr x : (forall k, ew k <> Intr) -> (forall k, ew k <> Fail) -> lively p ew ->
  sync rr true f d a -> fvalid a (FWrite x) -> (p * length x <= fuel)%nat -> x <> [] ->
  exists f' d', Write ew fuel f d x = Ok (f', d', true, N.of_nat (length x)) /\
    sync rr true f' d' (AFile (overwrite (content a) (apos a) x) (apos a + N.of_nat (length x))).
Proof.
  intros He Hf Hp HS Hv Hfu Hx. pose proof (write_ok ew fuel f d a _ x He HS Hv) as L.
  destruct HS as (H1 & H2 & H3 & H4 & H5 & H6 & H7 & H8 & H9).
  assert (Hno : forall f' d' n', Write ew fuel f d x <> Ok (f', d', false, n')).
  { intros f' d' n'. unfold Write. rewrite H1, H3. cbn [negb orb]. destruct (length x =? 0)%nat; [discriminate|].
    assert (W : forall g d b i left d1 i1, write_loop ew g d b i left <> Ok (d1, false, i1)).
    { clear - He Hf. induction g as [|g IH]; intros d b i left d1 i1; [discriminate|]. cbn [write_loop]. unfold sys_write.
      pose proof (He (used d)). pose proof (Hf (used d)). destruct (ew (used d)); [|congruence|congruence].
      destruct (_ =? _)%nat; [discriminate|apply IH]. }
    pose proof (W fuel d x O (length x)) as W1.
    destruct (write_loop ew fuel d x 0 (length x)) as [[[d1 ok] i1]| |]; [|discriminate|discriminate].
    cbn [bind]. destruct ok; [discriminate|]. exfalso. exact (W1 _ _ eq_refl). }
  assert (Hfuel : Write ew fuel f d x <> Fuel).
  { unfold Write. rewrite H1, H3. cbn [negb orb]. destruct (length x =? 0)%nat; [discriminate|].
    assert (W : write_loop ew fuel d x 0 (length x) <> Fuel).
    { apply (write_loop_ends p ew He Hp (length x)); [rewrite H5, H4; exact H8|reflexivity|lia|exact Hfu|].
      destruct x; [congruence|cbn; lia]. }
    destruct (write_loop ew fuel d x 0 (length x)) as [[[d1 ok] i1]| |]; [|discriminate|congruence].
    cbn [bind]. destruct ok; discriminate. }
  destruct (Write ew fuel f d x) as [[[[f' d'] ok] n']| |]; [|contradiction|congruence].
  destruct ok; [|exfalso; exact (Hno _ _ _ eq_refl)].
  destruct L as (_ & _ & _ & L & _). destruct (L eq_refl) as [-> L2]. exists f', d'. split; [reflexivity|exact L2].
Qed.

Lemma COPY_val : N.of_nat COPY = 8192.
Proof. reflexivity. Qed.
Lemma COPY_pos : (0 < COPY)%nat.
Proof. pose proof COPY_val. lia. Qed.
Local Opaque COPY.

Lemma firstn_overwrite c p x : p <= N.of_nat (length c) ->
  firstn (N.to_nat (p + N.of_nat (length x))) (overwrite c p x) = firstn (N.to_nat p) c ++ x.
Proof.
  intro H. unfold overwrite. rewrite app_assoc, firstn_app.
  replace (N.to_nat (p + N.of_nat (length x)) - length (firstn (N.to_nat p) c ++ x))%nat with O
    by (rewrite app_length, firstn_length; lia).
  cbn [firstn]. rewrite app_nil_r. apply firstn_all2. rewrite app_length, firstn_length. lia.
Qed.

Lemma copy_loop_ok er ew p : (forall k, exists j, er k = Part j /\ (COPY <= j)%nat) ->
  (forall k, ew k <> Intr) -> (forall k, ew k <> Fail) -> lively p ew ->
  forall m fuel sf sd df dd buf src ps dst pd ws rd,
  sync true ws sf sd (AFile src ps) -> sync rd true df dd (AFile dst pd) -> length buf = COPY ->
  (length src - N.to_nat ps <= m * COPY)%nat -> (m + p * COPY < fuel)%nat ->
  N.of_nat (length dst) + N.of_nat (m * COPY) < 2 ^ 62 ->
  exists df' dd' t q, copy_loop fuel er ew sf sd df dd buf = Ok (df', dd') /\
    firstn (N.to_nat (curr df')) (data dd') = firstn (N.to_nat pd) dst ++ skipn (N.to_nat ps) src ++ t /\
    (length t < COPY)%nat /\ length (skipn (N.to_nat ps) src ++ t) = (q * COPY)%nat /\
    curr df' <= N.of_nat (length (data dd')).
Proof.
  intros Hr He Hf Hp. induction m as [|m IH]; intros fuel sf sd df dd buf src ps dst pd ws rd HS HD Hb Hm Hfu Hsz;
    (destruct fuel as [|fuel]; [lia|]); cbn [copy_loop];
    (destruct (read_exact er fuel sf sd _ _ (N.of_nat COPY) ltac:(intro k; destruct (Hr k) as (j & E & Hj); exists j; split; [exact E|lia]) HS
      ltac:(rewrite COPY_val, W64_val; lia) ltac:(rewrite COPY_val; lia)) as (sf1 & sd1 & E1 & HS1));
    rewrite E1; cbn [bind negb orb]; cbn [apos content] in *; rewrite Nat2N.id in *.
  - rewrite (skipn_all2 src) by lia. rewrite firstn_nil. cbn [length Nat.eqb].
    exists df, dd, [], O. destruct HD as (H1 & H2 & H3 & H4 & H5 & H6 & H7 & H8 & H9). cbn [content apos] in *.
    unfold size in *. cbn [content] in *. rewrite H6, H4. split; [reflexivity|]. cbn [app]. rewrite app_nil_r. split; [reflexivity|].
    split; [exact COPY_pos|]. split; [reflexivity|]. lia.
  - set (b := firstn COPY (skipn (N.to_nat ps) src)) in *.
    destruct (Nat.eqb_spec (length b) 0) as [E0|E0].
    + assert (Hl : (length src <= N.to_nat ps)%nat).
      { unfold b in E0. rewrite firstn_length, skipn_length in E0. pose proof COPY_pos. lia. }
      rewrite (skipn_all2 src) by lia. exists df, dd, [], O.
      destruct HD as (H1 & H2 & H3 & H4 & H5 & H6 & H7 & H8 & H9). cbn [content apos] in *.
      unfold size in *. cbn [content] in *. rewrite H6, H4. split; [reflexivity|]. cbn [app]. rewrite app_nil_r. split; [reflexivity|].
      split; [exact COPY_pos|]. split; [reflexivity|]. lia.
    + set (buf1 := b ++ skipn (length b) buf).
      assert (Lb : (length b <= COPY)%nat) by (unfold b; rewrite firstn_length; lia).
      assert (L1 : length buf1 = COPY) by (unfold buf1; rewrite app_length, skipn_length; lia).
      rewrite Nat.mul_succ_l in Hm, Hsz. cbn [Nat.mul] in Hm, Hsz.
      destruct (write_all ew p (S fuel) df dd _ _ buf1 He Hf Hp HD) as (df1 & dd1 & E2 & HD1).
      { cbn [fvalid]. unfold size. cbn [content]. rewrite L1. lia. }
      { rewrite L1. lia. }
      { intro Z. rewrite Z in L1. pose proof COPY_pos. cbn in L1. lia. }
      rewrite E2. cbn [bind]. cbn [content apos] in HD1.
      assert (Hpd : pd <= N.of_nat (length dst)) by (destruct HD as (_ & _ & _ & _ & _ & _ & _ & H8 & _); exact H8).
      assert (Hl1 : length (overwrite dst pd buf1) = Nat.max (length dst) (N.to_nat pd + COPY))
        by (rewrite overwrite_length, L1 by exact Hpd; reflexivity).
      destruct (IH fuel sf1 sd1 df1 dd1 buf1 src (ps + N.of_nat (length b)) (overwrite dst pd buf1) (pd + N.of_nat (length buf1)) ws rd HS1 HD1 L1)
        as (df' & dd' & t & q & E3 & F1 & F2 & F3 & F4).
      { unfold b. rewrite firstn_length, skipn_length. lia. }
      { lia. }
      { rewrite Hl1. lia. }
      rewrite (firstn_overwrite dst pd buf1 Hpd) in F1.
      replace (N.to_nat (ps + N.of_nat (length b))) with (length b + N.to_nat ps)%nat in F1, F3 by lia.
      destruct (Nat.eq_dec (length b) COPY) as [Ec|Ec].
      * exists df', dd', t, (S q). split; [exact E3|].
        assert (Es : skipn (N.to_nat ps) src = b ++ skipn (length b + N.to_nat ps) src).
        { transitivity (firstn COPY (skipn (N.to_nat ps) src) ++ skipn COPY (skipn (N.to_nat ps) src)); [symmetry; apply firstn_skipn|].
          fold b. f_equal. rewrite skipn_skipn. f_equal. lia. }
        rewrite Es. split; [|split; [exact F2|split; [|exact F4]]].
        -- rewrite F1. unfold buf1. rewrite (skipn_all2 buf) by lia. rewrite app_nil_r, <- !app_assoc. reflexivity.
        -- rewrite <- app_assoc, app_length, F3, Ec. cbn [Nat.mul]. lia.
      * assert (Hend : (length src <= length b + N.to_nat ps)%nat).
        { unfold b in Ec |- *. rewrite firstn_length, skipn_length in *. lia. }
        rewrite (skipn_all2 src) in F1, F3 by lia. cbn [app] in F1, F3.
        assert (Ht : t = []).
        { destruct t; [reflexivity|]. cbn [length] in *. destruct q; [cbn in F3; lia|].
          rewrite Nat.mul_succ_l in F3. lia. }
        subst t. exists df', dd', (skipn (length b) buf), 1%nat. split; [exact E3|].
        assert (Es : skipn (N.to_nat ps) src = b).
        { unfold b. symmetry. apply firstn_all2. rewrite skipn_length. unfold b in Ec. rewrite firstn_length, skipn_length in Ec. lia. }
        rewrite Es. split; [|split; [|split; [|exact F4]]].
        -- rewrite F1, app_nil_r. reflexivity.
        -- rewrite skipn_length. lia.
        -- fold buf1. rewrite L1. lia.
Qed.

Lemma fresh_sync a c f d : fresh_file a c = (f, d) -> a <> BADACCESS -> N.of_nat (length c) < 2 ^ 62 ->
  sync (match a with WRONLY => false | _ => true end) (match a with RDONLY => false | _ => true end) f d (AFile c 0).
Proof.
  intros E Ha Hl. unfold fresh_file, Open in E. unfold sync, size. cbn [content apos].
  destruct a; cbn in E; injection E as <- <-; cbn [opened reads writes data off curr max]; (try congruence);
    (do 7 (split; [reflexivity|])); split; [lia|exact Hl|lia|exact Hl|lia|exact Hl].
Qed.

Lemma Copy_ok er ew p src dst buf : (forall k, exists j, er k = Part j /\ (COPY <= j)%nat) ->
  (forall k, ew k <> Intr) -> (forall k, ew k <> Fail) -> lively p ew -> length buf = COPY ->
  N.of_nat (length src) < 2 ^ 60 -> N.of_nat (length dst) < 2 ^ 60 ->
  exists fuel t q, Copy fuel er ew src dst buf = Ok (src ++ t) /\ (length t < COPY)%nat /\ length (src ++ t) = (q * COPY)%nat.
Proof.
  intros Hr He Hf Hp Hb Hs Hd. change (2 ^ 60) with 1152921504606846976 in *.
  pose proof (Nat.div_mod (length src) COPY ltac:(pose proof COPY_pos; lia)) as DM.
  pose proof (Nat.mod_upper_bound (length src) COPY ltac:(pose proof COPY_pos; lia)) as DM2.
  set (m := S (length src / COPY)). assert (Hm : (length src <= m * COPY <= length src + COPY)%nat).
  { unfold m. rewrite Nat.mul_succ_l. set (q := (length src / COPY)%nat) in *. clearbody q. set (z := (length src mod COPY)%nat) in *. clearbody z.
    rewrite Nat.mul_comm. lia. }
  clearbody m. exists (S (m + p * COPY)). unfold Copy.
  destruct (fresh_file RDONLY src) as [sf sd] eqn:E1. destruct (fresh_file WRONLY dst) as [df dd] eqn:E2.
  pose proof (fresh_sync _ _ _ _ E1 ltac:(discriminate) ltac:(rewrite P62_val; lia)) as HS.
  pose proof (fresh_sync _ _ _ _ E2 ltac:(discriminate) ltac:(rewrite P62_val; lia)) as HD.
  pose proof COPY_val as CV.
  destruct (copy_loop_ok er ew p Hr He Hf Hp m (S (m + p * COPY)) sf sd df dd buf src 0 dst 0 _ _ HS HD Hb)
    as (df' & dd' & t & q & E3 & F1 & F2 & F3 & F4); [cbn; lia|lia|rewrite P62_val; lia|].
  rewrite E3. cbn [bind]. cbn [N.to_nat firstn skipn app] in *. exists t, q. split; [|split; [exact F2|exact F3]].
  rewrite F1. replace (N.to_nat (curr df') - length (data dd'))%nat with O by lia. cbn [repeat]. rewrite app_nil_r. reflexivity.
Qed.

(** Whatever the system calls do, the length is a multiple of the buffer's. *)
Lemma w64_mult q : exists q', w64 (N.of_nat COPY * q) = N.of_nat COPY * q'.
Proof.
  exists (q mod 2251799813685248). unfold w64. rewrite COPY_val. replace W64 with (8192 * 2251799813685248) by reflexivity.
  apply N.mul_mod_distr_l; discriminate.
Qed.

Lemma copy_loop_length er ew fuel : forall sf sd df dd buf df' dd' q, opened df = true -> writes df = true ->
  (length buf = COPY)%nat -> curr df = N.of_nat COPY * q -> off dd <= N.of_nat (length (data dd)) ->
  copy_loop fuel er ew sf sd df dd buf = Ok (df', dd') -> exists q', curr df' = N.of_nat COPY * q'.
Proof.
  induction fuel as [|g IH]; intros sf sd df dd buf df' dd' q Ho Hw Hb Hc Hd E; [discriminate|]. cbn [copy_loop] in E.
  destruct (Read er (S g) sf sd (N.of_nat COPY)) as [[[[sf1 sd1] ok] b]| |] eqn:E1; [|discriminate E|discriminate E]. cbn [bind] in E.
  destruct (negb ok || (length b =? 0)%nat); [injection E as <- <-; exists q; exact Hc|].
  assert (Lb : (length b <= COPY)%nat).
  { unfold Read, UpdateMaxPos in E1. destruct (negb (opened sf) || negb (reads sf)); [injection E1 as <- <- <- <-; cbn; lia|].
    set (f1 := if _ <? _ then fst _ else sf) in E1. set (n1 := if _ <? _ then (if _ <? _ then _ else _) else _) in E1.
    assert (Hn : n1 <= N.of_nat COPY).
    { unfold n1. destruct (_ <? _); [|lia]. destruct (N.ltb_spec (sub64 (max f1) (curr f1)) (N.of_nat COPY)); lia. }
    destruct (n1 =? 0); [injection E1 as <- <- <- <-; cbn; lia|].
    pose proof (read_loop_ok er (S g) sd (N.to_nat n1)) as L.
    destruct (read_loop er (S g) sd (N.to_nat n1)) as [[d1 r]| |]; [|discriminate E1|discriminate E1]. cbn [bind] in E1.
    destruct r; injection E1 as <- <- <- <-; [|cbn; lia]. destruct L as (_ & L & _). lia. }
  set (buf1 := b ++ skipn (length b) buf) in E.
  assert (L1 : length buf1 = COPY) by (unfold buf1; rewrite app_length, skipn_length; lia).
  unfold Write in E. rewrite Ho, Hw in E. cbn [negb orb] in E.
  destruct (Nat.eqb_spec (length buf1) 0) as [Z|_]; [pose proof COPY_pos; lia|].
  pose proof (write_loop_bounds ew (S g) dd buf1 0 (length buf1) Hd eq_refl) as L.
  destruct (write_loop ew (S g) dd buf1 0 (length buf1)) as [[[dd1 ok2] n]| |]; [|discriminate E|discriminate E].
  cbn [bind] in E. destruct L as (Hok & _ & _ & Hd1 & _).
  destruct ok2; cbn [bind] in E.
  - rewrite (Hok eq_refl), L1, Hc in E. replace (N.of_nat COPY * q + N.of_nat COPY) with (N.of_nat COPY * (q + 1)) in E by lia.
    destruct (w64_mult (q + 1)) as [q2 E2]. rewrite E2 in E.
    match type of E with copy_loop g er ew ?a ?b ?c ?d ?e = _ =>
      apply (IH a b c d e df' dd' q2) in E; [exact E|reflexivity|reflexivity|exact L1|reflexivity|exact Hd1] end.
  - apply (IH _ _ _ _ _ df' dd' q) in E; [exact E|exact Ho|exact Hw|exact L1|exact Hc|exact Hd1].
Qed.

Lemma Copy_length fuel er ew src dst buf r : length buf = COPY -> Copy fuel er ew src dst buf = Ok r ->
  exists q, length r = (q * COPY)%nat.
Proof.
  intros Hb E. unfold Copy, fresh_file, Open, Close in E. cbn [fst opened reads writes curr max negb] in E.
  match type of E with context [copy_loop fuel er ew ?a ?b ?c ?d buf] => destruct (copy_loop fuel er ew a b c d buf) as [[df dd]| |] eqn:F end;
    [|discriminate E|discriminate E]. cbn [bind] in E. injection E as <-.
  apply (copy_loop_length er ew fuel _ _ _ _ _ _ _ 0) in F; [|reflexivity|reflexivity|exact Hb|cbn [curr]; lia|cbn [off data]; lia].
  destruct F as [q Hq]. exists (N.to_nat q). rewrite app_length, firstn_length, repeat_length, Hq. lia.
Qed.

(** A destination that refuses every write. *)
Lemma copy_loop_fails er ew : (forall k, exists j, er k = Part j /\ (COPY <= j)%nat) -> (forall k, ew k = Fail) ->
  forall m fuel sf sd df dd buf src ps ws,
  sync true ws sf sd (AFile src ps) -> opened df = true -> writes df = true -> length buf = COPY ->
  (length src - N.to_nat ps <= m * COPY)%nat -> (m < fuel)%nat ->
  exists dd', copy_loop fuel er ew sf sd df dd buf = Ok (df, dd').
Proof.
  intros Hr Hw. induction m as [|m IH]; intros fuel sf sd df dd buf src ps ws HS Ho Hwr Hb Hm Hfu;
    (destruct fuel as [|fuel]; [lia|]); cbn [copy_loop];
    (destruct (read_exact er fuel sf sd _ _ (N.of_nat COPY) ltac:(intro k; destruct (Hr k) as (j & E & Hj); exists j; split; [exact E|lia]) HS
      ltac:(rewrite COPY_val, W64_val; lia) ltac:(rewrite COPY_val; lia)) as (sf1 & sd1 & E1 & HS1));
    rewrite E1; cbn [bind negb orb]; cbn [apos content] in *; rewrite Nat2N.id in *.
  - rewrite (skipn_all2 src) by lia. rewrite firstn_nil. cbn [length Nat.eqb]. exists dd. reflexivity.
  - set (b := firstn COPY (skipn (N.to_nat ps) src)) in *.
    destruct (Nat.eqb_spec (length b) 0) as [E0|E0]; [exists dd; reflexivity|].
    assert (Lb : (length b <= COPY)%nat) by (unfold b; rewrite firstn_length; lia).
    set (buf1 := b ++ skipn (length b) buf).
    assert (L1 : length buf1 = COPY) by (unfold buf1; rewrite app_length, skipn_length; lia).
    unfold Write. rewrite Ho, Hwr. cbn [negb orb].
    destruct (Nat.eqb_spec (length buf1) 0) as [Z|_]; [pose proof COPY_pos; lia|].
    cbn [write_loop]. unfold sys_write. rewrite Hw. cbn [bind].
    rewrite Nat.mul_succ_l in Hm.
    apply (IH fuel sf1 sd1 df _ buf1 src (ps + N.of_nat (length b)) ws HS1 Ho Hwr L1); [|lia].
    unfold b. rewrite firstn_length, skipn_length. lia.
Qed.

Lemma Copy_fails er ew src dst buf : (forall k, exists j, er k = Part j /\ (COPY <= j)%nat) -> (forall k, ew k = Fail) ->
  length buf = COPY -> N.of_nat (length src) < 2 ^ 60 -> exists fuel, Copy fuel er ew src dst buf = Ok [].
Proof.
  intros Hr Hw Hb Hs. exists (S (length src)). unfold Copy.
  destruct (fresh_file RDONLY src) as [sf sd] eqn:E1.
  pose proof (fresh_sync _ _ _ _ E1 ltac:(discriminate) ltac:(change (2 ^ 60) with 1152921504606846976 in *; rewrite P62_val; lia)) as HS.
  unfold fresh_file, Open, Close. cbn [fst opened reads writes curr max negb].
  match goal with |- context [copy_loop ?fu er ew sf sd ?c ?d buf] => 
    destruct (copy_loop_fails er ew Hr Hw (length src) fu sf sd c d buf src 0 _ HS eq_refl eq_refl Hb) as [dd' E] end.
  { pose proof COPY_pos. cbn. nia. } { lia. }
  rewrite E. reflexivity.
Qed.
