(** Proofs about ReplaceAll and StaticReplaceAll. *)
From Verif Require Import Base M_Find S_Find P_Find.

Section Proofs.
Variable eq : N -> N -> bool.
Variable uninit : nat -> list N.
Hypothesis uninit_length : forall n, length (uninit n) = n.
Variable alt : bool.

(** ** Lists *)
Lemma firstn_pre {A} (a b : list A) n : n = length a -> firstn n (a ++ b) = a.
Proof. intros ->. rewrite firstn_app, firstn_all, Nat.sub_diag. apply app_nil_r. Qed.

Lemma skipn_pre {A} (a b : list A) n : n = length a -> skipn n (a ++ b) = b.
Proof. intros ->. rewrite skipn_app, skipn_all, Nat.sub_diag. reflexivity. Qed.

Lemma blit_end {A} (t r s : list A) : length s <= length r ->
  blit (t ++ r) (length t) s = Ok (t ++ s ++ skipn (length s) r).
Proof.
  intros L. rewrite blit_in by (rewrite app_length; lia). rewrite firstn_pre by auto. do 3 f_equal.
  rewrite skipn_app. rewrite skipn_all2 by lia. cbn [app]. f_equal. lia.
Qed.

Lemma realloc_keep t r n : length t <= n ->
  exists r', realloc uninit (t ++ r) n = t ++ r' /\ length (t ++ r') = n.
Proof.
  intros L. unfold realloc. rewrite firstn_app. rewrite firstn_all2 by lia. rewrite <- app_assoc.
  eexists. split; [reflexivity|]. repeat rewrite ?app_length, ?firstn_length, ?skipn_length, ?uninit_length. lia.
Qed.

Lemma copy_keep t r n m : length t <= n -> n <= length (t ++ r) -> n <= m ->
  exists r', (let* old := slice (t ++ r) 0 n in blit (uninit m) 0 old) = Ok (t ++ r') /\ length (t ++ r') = m.
Proof.
  intros L1 L2 L3. rewrite slice_in by lia. cbn [bind skipn]. rewrite blit_in.
  2:{ rewrite firstn_length, uninit_length. lia. }
  cbn [firstn app]. rewrite firstn_app. rewrite firstn_all2 by lia. rewrite <- app_assoc.
  eexists. split; [reflexivity|]. repeat rewrite ?app_length, ?firstn_length, ?skipn_length, ?uninit_length. rewrite app_length in *. lia.
Qed.

(** ** Occurrences in a suffix *)
Lemma occurs_skip pat data c i : c <= length data ->
  (occurs eq pat (skipn c data) i <-> occurs eq pat data (c + i)).
Proof.
  intros L. unfold occurs. rewrite skipn_length.
  assert (X : forall j, nth j (skipn c data) 0%N = nth (c + j) data 0%N).
  { intros j. rewrite <- (firstn_skipn c data) at 2. rewrite app_nth2; rewrite firstn_length; [|lia].
    f_equal. lia. }
  split; intros [H1 H2]; (split; [lia|]); intros j Hj; specialize (H2 j Hj).
  - rewrite X in H2. now rewrite Nat.add_assoc in H2.
  - rewrite X. now rewrite Nat.add_assoc.
Qed.

Lemma first_skip pat data c r : c <= length data ->
  (first_from eq pat (skipn c data) 0 r <-> first_from eq pat data c (option_map (Nat.add c) r)).
Proof.
  intros L. destruct r as [i|]; cbn [option_map first_from].
  - rewrite occurs_skip by auto. split.
    + intros (_ & H1 & H2). split; [lia|]. split; auto. intros k K1 K2 O.
      apply (H2 (k - c)); try lia. apply occurs_skip; auto. now replace (c + (k - c)) with k by lia.
    + intros (_ & H1 & H2). split; [lia|]. split; auto. intros k K1 K2 O.
      apply occurs_skip in O; auto. apply (H2 (c + k)); auto; lia.
  - split; intros H k K O.
    + apply (H (k - c)); try lia. apply occurs_skip; auto. now replace (c + (k - c)) with k by lia.
    + apply occurs_skip in O; auto. apply (H (c + k)); auto. lia.
Qed.

Lemma occurs_dec pat data i : {occurs eq pat data i} + {~ occurs eq pat data i}.
Proof.
  destruct (le_dec (i + length pat) (length data)) as [L|L]; [|right; intros [O _]; lia].
  destruct (compare_from eq (length pat) pat data i 0) as [[|]| |] eqn:E.
  - left. destruct (compare_from_ok eq pat data i L (length pat) 0 ltac:(lia)) as (b & Eb & Hb).
    rewrite E in Eb. inversion Eb; subst. split; auto. intros j Hj. apply (proj1 Hb eq_refl). lia.
  - right. destruct (compare_from_ok eq pat data i L (length pat) 0 ltac:(lia)) as (b & Eb & Hb).
    rewrite E in Eb. inversion Eb; subst. intros [_ O]. assert (false = true); [|discriminate].
    apply Hb. intros j Hj. apply O. lia.
  - exfalso. destruct (compare_from_ok eq pat data i L (length pat) 0 ltac:(lia)) as (b & Eb & _). congruence.
  - exfalso. destruct (compare_from_ok eq pat data i L (length pat) 0 ltac:(lia)) as (b & Eb & _). congruence.
Qed.

Lemma first_exists pat data c : exists r, first_from eq pat data c r.
Proof.
  remember (S (length data) - c) as n eqn:En. revert c En. induction n as [|n IH]; intros c En.
  - exists None. intros k K [O _]. lia.
  - destruct (occurs_dec pat data c) as [O|O].
    + exists (Some c). split; auto. split; auto. intros; lia.
    + destruct (IH (S c) ltac:(lia)) as ([i|] & H).
      * exists (Some i). destruct H as (H1 & H2 & H3). split; [lia|]. split; auto. intros k K1 K2.
        destruct (Nat.eq_dec k c) as [->|]; auto. apply H3; lia.
      * exists None. intros k K. destruct (Nat.eq_dec k c) as [->|]; auto. apply H. lia.
Qed.

Lemma replaced_cut_exists pat rep : forall n data k, length data <= n -> exists out m, replaced_cut eq pat rep k data out m.
Proof.
  induction n as [|n IH]; intros data k L.
  - destruct data; [|cbn in L; lia]. exists [], 0. apply c_none. destruct pat as [|p pat]; auto. right.
    intros i _ [O _]. cbn in O. lia.
  - destruct pat as [|p pat].
    { exists data, 0. apply c_none. auto. }
    destruct (first_exists (p :: pat) data 0) as ([i|] & H).
    + destruct k as [[|k]|].
      * exists (firstn i data), 0. apply c_full; auto. discriminate.
      * destruct (IH (skipn (i + length (p :: pat)) data) (Some k)) as (out & m & R).
        { rewrite skipn_length. cbn [length]. lia. }
        do 2 eexists. apply c_one; [exact I|discriminate|exact H|exact R].
      * destruct (IH (skipn (i + length (p :: pat)) data) None) as (out & m & R).
        { rewrite skipn_length. cbn [length]. lia. }
        do 2 eexists. apply c_one; [exact I|discriminate|exact H|exact R].
    + exists data, 0. apply c_none. auto.
Qed.

Lemma replaced_exists pat rep : forall n data k, length data <= n -> exists out m, replaced eq pat rep k data out m.
Proof.
  induction n as [|n IH]; intros data k L.
  - destruct data; [|cbn in L; lia]. exists [], 0. apply r_none. destruct pat as [|p pat]; auto. right.
    intros i _ [O _]. cbn in O. lia.
  - destruct pat as [|p pat].
    { exists data, 0. apply r_none. auto. }
    destruct (first_exists (p :: pat) data 0) as ([i|] & H).
    + destruct k as [[|k]|].
      * exists data, 0. apply r_full.
      * destruct (IH (skipn (i + length (p :: pat)) data) (Some k)) as (out & m & R).
        { rewrite skipn_length. cbn [length]. lia. }
        do 2 eexists. apply r_one; [exact I|discriminate|exact H|exact R].
      * destruct (IH (skipn (i + length (p :: pat)) data) None) as (out & m & R).
        { rewrite skipn_length. cbn [length]. lia. }
        do 2 eexists. apply r_one; [exact I|discriminate|exact H|exact R].
    + exists data, 0. apply r_none. auto.
Qed.

Lemma replaced_fun pat rep k data out n : replaced eq pat rep k data out n ->
  forall out' n', replaced eq pat rep k data out' n' -> out = out' /\ n = n'.
Proof.
  induction 1 as [k data H|data|k data i out n Hr Hp Hf H IH]; intros out' n' K; inversion K; subst; auto.
  - destruct H as [H|H]; [contradiction|].
    match goal with F : first_from _ _ _ _ (Some _) |- _ => pose proof (first_from_fun _ _ _ _ _ _ H F); discriminate end.
  - match goal with R : room (Some 0) |- _ => destruct R end.
  - match goal with F : pat = [] \/ _ |- _ => destruct F as [F|F]; [contradiction|pose proof (first_from_fun _ _ _ _ _ _ Hf F); discriminate] end.
  - destruct Hr.
  - match goal with F : first_from _ _ _ _ (Some ?j) |- _ => pose proof (first_from_fun _ _ _ _ _ _ Hf F) as Q; inversion Q; subst end.
    match goal with R : replaced _ _ _ _ _ _ _ |- _ => destruct (IH _ _ R) as [-> ->]; auto end.
Qed.

Lemma replaced_cut_fun pat rep k data out n : replaced_cut eq pat rep k data out n ->
  forall out' n', replaced_cut eq pat rep k data out' n' -> out = out' /\ n = n'.
Proof.
  induction 1 as [k data H|data i Hp Hf|k data i out n Hr Hp Hf H IH]; intros out' n' K; inversion K; subst; auto.
  - destruct H as [H|H]; [contradiction|].
    match goal with F : first_from _ _ _ _ (Some _) |- _ => pose proof (first_from_fun _ _ _ _ _ _ H F); discriminate end.
  - destruct H as [H|H]; [contradiction|].
    match goal with F : first_from _ _ _ _ (Some _) |- _ => pose proof (first_from_fun _ _ _ _ _ _ H F); discriminate end.
  - match goal with F : pat = [] \/ _ |- _ => destruct F as [F|F]; [contradiction|pose proof (first_from_fun _ _ _ _ _ _ Hf F); discriminate] end.
  - match goal with F : first_from _ _ _ _ (Some ?j) |- _ => pose proof (first_from_fun _ _ _ _ _ _ Hf F) as Q; inversion Q; subst end. auto.
  - match goal with R : room (Some 0) |- _ => destruct R end.
  - match goal with F : pat = [] \/ _ |- _ => destruct F as [F|F]; [contradiction|pose proof (first_from_fun _ _ _ _ _ _ Hf F); discriminate] end.
  - destruct Hr.
  - match goal with F : first_from _ _ _ _ (Some ?j) |- _ => pose proof (first_from_fun _ _ _ _ _ _ Hf F) as Q; inversion Q; subst end.
    match goal with R : replaced_cut _ _ _ _ _ _ _ |- _ => destruct (IH _ _ R) as [-> ->]; auto end.
Qed.

(** The limit is not reached: nothing is cut. *)
Lemma cut_all pat rep k data out n : replaced eq pat rep k data out n ->
  k = None -> forall l, (match l with Some m => n <= m | None => True end) -> replaced_cut eq pat rep l data out n.
Proof.
  induction 1 as [k data H|data|k data i out n Hr Hp Hf H IH]; intros Ek l Hl.
  - apply c_none; auto.
  - discriminate.
  - apply c_one; auto.
    + destruct l as [[|l]|]; cbn; auto. lia.
    + apply IH; [now rewrite Ek|]. destruct l as [[|l]|]; cbn; auto; lia.
Qed.

(** The limit is reached and there are more occurrences: the tail is lost. *)
Lemma cut_loses pat rep k data out n : replaced_cut eq pat rep k data out n ->
  forall full m, replaced eq pat rep None data full m -> (exists l, k = Some l /\ l < m) ->
  exists want lost, replaced eq pat rep k data want n /\ k = Some n /\ want = out ++ lost /\ length pat <= length lost /\ pat <> [].
Proof.
  induction 1 as [k data H|data i Hp Hf|k data i out n Hr Hp Hf H IH]; intros full m HF (l & Ek & Hl).
  - inversion HF; subst; [lia|]. destruct H as [H|H]; [contradiction|].
    match goal with F : first_from _ _ _ _ (Some _) |- _ => pose proof (first_from_fun _ _ _ _ _ _ H F); discriminate end.
  - exists data, (skipn i data). split; [apply r_full|]. split; auto. split; [symmetry; apply firstn_skipn|]. split; auto.
    rewrite skipn_length. destruct Hf as (_ & [O _] & _). lia.
  - inversion HF; subst.
    { match goal with F : pat = [] \/ _ |- _ => destruct F as [F|F]; [contradiction|pose proof (first_from_fun _ _ _ _ _ _ Hf F); discriminate] end. }
    match goal with F : first_from _ _ _ _ (Some ?j), R : replaced _ _ _ (less None) _ _ _ |- _ =>
      pose proof (first_from_fun _ _ _ _ _ _ Hf F) as Q; inversion Q; subst; rename R into RR end.
    destruct l as [|l]; [destruct Hr|].
    assert (Ll : l < n0) by lia.
    destruct (IH _ _ RR (ex_intro _ l (conj eq_refl Ll))) as (want & lost & W1 & W2 & -> & W4 & _).
    cbn [less] in *. inversion W2; subst.
    eexists (firstn _ data ++ rep ++ out ++ lost), lost. split; [|split; [auto|split; [|auto]]].
    + apply r_one; eauto.
    + now rewrite <- !app_assoc.
Qed.

Lemma replaced_length pat rep k data out n : replaced eq pat rep k data out n ->
  length out + n * length pat = length data + n * length rep.
Proof.
  induction 1 as [k data H|data|k data i out n Hr Hp Hf H IH]; try lia.
  destruct Hf as (_ & [O _] & _). rewrite skipn_length in IH. rewrite !app_length, firstn_length. lia.
Qed.

(** ** The loop *)
Variable pat rep data : list N.
Variable usemem : bool.
Hypothesis mem : memok eq usemem.

(** The searcher is about to look from position [c] on. *)
Definition at_pos (f : finder) (c : nat) : Prop :=
  c <= length data /\
  (searchR f (Searching pat data c) \/
   (searchR f (HavePattern pat) \/ searchR f Idle) /\ (pat = [] \/ first_from eq pat data c None)).

Lemma find_at f c : at_pos f c -> exists f' r, FindNext eq f usemem = Ok (f', r) /\
  match r with
  | Some i => pat <> [] /\ first_from eq pat data c (Some i) /\ searchR f' (Searching pat data (S i))
  | None => pat = [] \/ first_from eq pat data c None
  end.
Proof.
  intros [L [H|[H N]]].
  - destruct (FindNext_ok eq f pat data c usemem H mem) as (f' & r & E & Hr & HR). exists f', r. split; auto.
    destruct r; auto. split; auto. apply HR.
  - exists f, None. split; auto. unfold FindNext. destruct H as [[HF HD]|[HP HL]].
    + now rewrite HD.
    + rewrite HP. now destruct (fdata f).
Qed.

Lemma at_resume f c : c <= length data -> searchR f (resume pat data c) -> at_pos f c.
Proof.
  intros L H. split; auto. unfold resume, ended in H. destruct (Nat.ltb_spec (length data) (c + length pat)) as [B|B]; auto.
  right. split; auto. right. intros k K [O _]. lia.
Qed.

(** Skipping the match just found at [i]. *)
Lemma skip_at f i : searchR f (Searching pat data (S i)) -> occurs eq pat data i -> pat <> [] ->
  exists f', SkipMatch f 0 = (f', Some (i + length pat)) /\ at_pos f' (i + length pat).
Proof.
  intros H [O _] Hp. assert (1 <= length pat) by (destruct pat; cbn; [congruence|lia]).
  destruct (SkipMatch_ok f pat data (S i) 0 H) as (f' & E & HR).
  replace (S i + (length pat - 1) + 0) with (i + length pat) in * by lia.
  exists f'. split; auto. apply at_resume; auto.
Qed.

(** Allocated result. *)
Definition alloc_state (r : replacer) (c : nat) (out : list N) : Prop :=
  at_pos (rfind r) c /\ rdata r = data /\ rsrc r = c /\ rsrcend r = length data /\ ralloc r = true /\
  rpos r = length out /\ length out <= rsize r /\
  exists rest, rbuf r = out ++ rest /\ length (rbuf r) = rsize r + rextra r.

(** Growth does not read outside the old block: either realloc is used, or there is no growth. *)
Definition safe (r : replacer) (total : nat) : Prop := alt = true \/ total <= rsize r.

Lemma slice_data c n : c + n <= length data -> slice data c n = Ok (firstn n (skipn c data)) /\ length (firstn n (skipn c data)) = n.
Proof. intros L. rewrite slice_in by lia. split; auto. rewrite firstn_length, skipn_length. lia. Qed.

Lemma RFind_alloc r c out : alloc_state r c out ->
  exists next, (match next with Some i => pat <> [] /\ first_from eq pat data c (Some i) | None => pat = [] \/ first_from eq pat data c None end) /\
  let dist := (match next with Some i => i | None => length data end) - c in
  (safe r (length out + dist) ->
   exists r', RFindNext eq uninit alt r usemem = Ok (r', next) /\
    rdata r' = data /\ rsrc r' = c /\ rsrcend r' = length data /\ ralloc r' = true /\ rextra r' = rextra r /\ rgrow r' = rgrow r /\
    rpos r' = length out + dist /\ rpos r' <= rsize r' /\
    (exists rest, rbuf r' = (out ++ firstn dist (skipn c data)) ++ rest /\ length (rbuf r') = rsize r' + rextra r') /\
    match next with
    | Some i => searchR (rfind r') (Searching pat data (S i)) /\ (alt = true \/ rsize r' = rsize r)
    | None => rsize r' = rpos r'
    end).
Proof.
  intros (HA & HD & HS & HE & HL & HP & HZ & rest & HB & HN).
  destruct (find_at (rfind r) c HA) as (f' & next & EF & HF). exists next.
  assert (Lc : c <= length data) by apply HA.
  assert (Ld : c + ((match next with Some i => i | None => length data end) - c) <= length data).
  { destruct next as [i|]; [|lia]. destruct HF as (_ & (H1 & [H2 _] & _) & _). lia. }
  split. { destruct next; tauto. }
  set (dist := (match next with Some i => i | None => length data end) - c) in *. cbv zeta. intros HSafe.
  unfold RFindNext. rewrite EF. cbn [bind].
  rewrite HS, HE, HL, HP, HD. 
  replace (match next with Some n => n | None => length data end - c) with dist by reflexivity.
  destruct (slice_data c dist Ld) as [ESl LSl].
  assert (COPY : forall b size nx, (exists rest', b = out ++ rest' /\ dist <= length rest') ->
    exists rest2 , (let* buf2 := (if (dist =? 0)%nat then Ok b else let* s := slice data c dist in blit b (length out) s) in
      Ok (Replacer f' data (rgrow r) (rextra r) c (length data) true buf2 size (length out + dist), nx)) =
      Ok (Replacer f' data (rgrow r) (rextra r) c (length data) true ((out ++ firstn dist (skipn c data)) ++ rest2) size (length out + dist), nx : option nat) /\
      length ((out ++ firstn dist (skipn c data)) ++ rest2) = length b).
  { intros b size nx (rest' & -> & Lr). destruct (Nat.eqb_spec dist 0) as [E0|E0].
    - exists rest'. rewrite E0. cbn [firstn]. rewrite app_nil_r. auto.
    - rewrite ESl. cbn [bind]. rewrite blit_end by lia. cbn [bind].
      exists (skipn (length (firstn dist (skipn c data))) rest'). rewrite <- !app_assoc. split; auto.
      rewrite !app_length, LSl, skipn_length. lia. }
  assert (Lrest : length rest = rsize r + rextra r - length out) by (rewrite HB, app_length in HN; lia).
  destruct next as [i|].
  - cbn [andb]. rewrite orb_false_r. destruct (Nat.ltb_spec (rsize r) (length out + dist)) as [G|G].
    + destruct HSafe as [Ha|HS2]; [|lia]. rewrite Ha. cbn [bind]. rewrite HB.
      destruct (realloc_keep out rest (length out + dist + rgrow r + rextra r) ltac:(lia)) as (rest' & ER & LR).
      rewrite ER. rewrite app_length in LR.
      destruct (COPY (out ++ rest') (length out + dist + rgrow r) (Some i)) as (rest2 & E2 & L2).
      { exists rest'. split; auto. lia. }
      rewrite E2. eexists. split; [reflexivity|]. cbn. split; [auto|]. split; [auto|]. split; [auto|]. split; [auto|]. split; [auto|].
      split; [auto|]. split; [auto|]. split; [lia|]. split.
      { exists rest2. split; auto. rewrite L2, app_length. lia. }
      split; [apply HF|]. auto.
    + cbn [bind]. rewrite HB. destruct (COPY (out ++ rest) (rsize r) (Some i)) as (rest2 & E2 & L2).
      { exists rest. split; auto. lia. }
      rewrite E2. eexists. split; [reflexivity|]. cbn. split; [auto|]. split; [auto|]. split; [auto|]. split; [auto|]. split; [auto|].
      split; [auto|]. split; [auto|]. split; [lia|]. split.
      { exists rest2. split; auto. rewrite L2, app_length. lia. }
      split; [apply HF|]. auto.
  - cbn [andb]. rewrite orb_true_r. rewrite Nat.add_0_r.
    assert (NB : exists rest', (if alt then Ok (realloc uninit (rbuf r) (length out + dist + rextra r), length out + dist, dist, None)
         else let* old := slice (rbuf r) 0 (length out + dist) in
              let* nb := blit (uninit (length out + dist + rextra r)) 0 old in Ok (nb, length out + dist, dist, None)) =
       Ok (out ++ rest', length out + dist, dist, None : option nat) /\ length (out ++ rest') = length out + dist + rextra r).
    { rewrite HB. unfold safe in HSafe. destruct alt.
      - destruct (realloc_keep out rest (length out + dist + rextra r) ltac:(lia)) as (rest' & ER & LR).
        exists rest'. rewrite ER. auto.
      - destruct HSafe as [Ha|HS2]; [discriminate|].
        destruct (copy_keep out rest (length out + dist) (length out + dist + rextra r)) as (rest' & ER & LR); try lia.
        { rewrite app_length. lia. }
        exists rest'. split; auto. destruct (slice (out ++ rest) 0 (length out + dist)) as [old| |]; try discriminate ER.
        cbn [bind] in *. rewrite ER. reflexivity. }
    destruct NB as (rest' & ENB & LNB). rewrite ENB. cbn [bind]. rewrite app_length in LNB.
    destruct (COPY (out ++ rest') (length out + dist) None) as (rest2 & E2 & L2).
    { exists rest'. split; auto. lia. }
    rewrite E2. eexists. split; [reflexivity|]. cbn. split; [auto|]. split; [auto|]. split; [auto|]. split; [auto|]. split; [auto|].
    split; [auto|]. split; [auto|]. split; [lia|]. split; auto.
    exists rest2. split; auto. rewrite L2, app_length. lia.
Qed.

Lemma Replace_alloc r i out : rdata r = data -> rsrcend r = length data -> ralloc r = true ->
  searchR (rfind r) (Searching pat data (S i)) -> occurs eq pat data i -> pat <> [] ->
  rpos r = length out -> length out <= rsize r ->
  (exists rest, rbuf r = out ++ rest /\ length (rbuf r) = rsize r + rextra r) ->
  safe r (length out + length rep) ->
  exists r', Replace uninit alt r rep 0 = Ok r' /\ alloc_state r' (i + length pat) (out ++ rep) /\
    rextra r' = rextra r /\ rgrow r' = rgrow r /\ (alt = true \/ rsize r' = rsize r).
Proof.
  intros HD HE HL HS HO Hp HP HZ (rest & HB & HN) HSafe.
  assert (Lrest : length rest = rsize r + rextra r - length out) by (rewrite HB, app_length in HN; lia).
  destruct (skip_at (rfind r) i HS HO Hp) as (f' & ES & HA).
  assert (Lc : i + length pat <= length data) by apply HO.
  unfold Replace. rewrite HP, HL.
  assert (FIN : forall b size, (exists rest', b = (out ++ rep) ++ rest' /\ length b = size + rextra r) -> length (out ++ rep) <= size ->
     (alt = true \/ size = rsize r) ->
     exists r', (let '(f1, p) := SkipMatch (rfind r) 0 in
       match p with
       | Some c => Ok (Replacer f1 (rdata r) (rgrow r) (rextra r) (Nat.min c (rsrcend r)) (rsrcend r) true b size (length out + length rep))
       | None => UB end) = Ok r' /\ alloc_state r' (i + length pat) (out ++ rep) /\
       rextra r' = rextra r /\ rgrow r' = rgrow r /\ (alt = true \/ rsize r' = rsize r)).
  { intros b size HB2 L2 HS2. rewrite ES. eexists. split; [reflexivity|]. cbn. split; auto.
    split; auto. cbn. rewrite HE. split; auto. split; [lia|]. split; auto. split; auto.
    split; [rewrite app_length; lia|]. split; auto. }
  destruct (Nat.eqb_spec (length rep) 0) as [E0|E0].
  - cbn [bind]. rewrite E0, Nat.add_0_r in FIN. rewrite <- HP.
    assert (rep = []) as R0 by (now apply length_zero_iff_nil).
    rewrite HP. apply FIN; auto.
    + rewrite R0, app_nil_r. eauto.
    + rewrite R0, app_nil_r. auto.
  - assert (SL : slice rep 0 (length rep) = Ok rep) by (rewrite slice_in by lia; cbn [skipn]; now rewrite firstn_all).
    destruct (Nat.ltb_spec (rsize r) (length out + length rep)) as [G|G].
    + destruct HSafe as [Ha|HS2]; [|lia]. rewrite Ha in *. cbn [bind]. rewrite SL. cbn [bind]. rewrite HB.
      destruct (realloc_keep out rest (length out + length rep + rgrow r + rextra r) ltac:(lia)) as (rest' & ER & LR).
      rewrite ER. rewrite app_length in LR. rewrite blit_end by lia. cbn [bind].
      apply FIN; auto.
      * exists (skipn (length rep) rest'). split; [now rewrite <- app_assoc|]. rewrite !app_length, skipn_length. lia.
      * rewrite app_length. lia.
    + cbn [bind]. rewrite SL. cbn [bind]. rewrite HB. rewrite blit_end by lia. cbn [bind].
      apply FIN; auto.
      * exists (skipn (length rep) rest). split; [now rewrite <- app_assoc|]. rewrite !app_length, skipn_length. lia.
      * rewrite app_length. lia.
Qed.

Definition left (limit : option nat) (num : nat) : option nat :=
  match limit with None => None | Some l => Some (l - num) end.

Lemma skip_more c i : skipn (i + length pat) (skipn c data) = skipn (c + i + length pat) data.
Proof. rewrite skipn_skipn. f_equal. lia. Qed.

Lemma loop_alloc limit : forall k tail out2 n, replaced_cut eq pat rep k tail out2 n ->
  forall c out r num fuel, tail = skipn c data -> k = left limit num ->
  (match limit with Some l => num <= l | None => True end) ->
  alloc_state r c out -> safe r (length out + length out2) -> length tail < fuel ->
  exists r', replace_loop eq uninit alt fuel r usemem rep limit num = Ok (r', num + n) /\
    rpos r' = length (out ++ out2) /\ (exists rest, rbuf r' = (out ++ out2) ++ rest /\ rextra r <= length rest) /\
    (match limit with None => length (rbuf r') = rpos r' + rextra r | _ => True end).
Proof.
  intros k tail out2 n H. induction H as [k tail HN|tail i Hp Hf|k tail i out2 n Hr Hp Hf H IH];
    intros c out r num fuel Et Ek Hlim HA HS HFu; destruct fuel as [|fuel]; try lia; cbn [replace_loop];
    assert (Lc : c <= length data) by apply HA; rewrite Et in *.
  - destruct (RFind_alloc r c out HA) as (next & Hn & K).
    assert (next = None) as ->.
    { destruct next as [i|]; auto. destruct Hn as [Hp Hn]. destruct HN as [HN|HN]; [contradiction|].
      apply (first_skip pat data c None Lc) in HN. pose proof (first_from_fun _ _ _ _ _ _ Hn HN). discriminate. }
    destruct K as (r' & E & K1 & K2 & K3 & K4 & K5 & K6 & K7 & K8 & (rest & K9 & K10) & K11).
    { unfold safe in *. rewrite skipn_length in HS. exact HS. }
    rewrite E. cbn [bind]. exists r'. rewrite Nat.add_0_r. split; auto.
    rewrite firstn_all2 in K9 by (rewrite skipn_length; lia).
    split; [rewrite K7, app_length, skipn_length; lia|].
    rewrite K9 in *. repeat rewrite app_length in *. rewrite skipn_length in *.
    split; [exists rest; split; auto; lia|]. destruct limit; auto. lia.
  - destruct (RFind_alloc r c out HA) as (next & Hn & K).
    apply (first_skip pat data c (Some i) Lc) in Hf. cbn [option_map] in Hf.
    assert (next = Some (c + i)) as ->.
    { destruct next as [j|]; [exact (first_from_fun _ _ _ _ _ _ (proj2 Hn) Hf)|].
      destruct Hn as [Hn|Hn]; [contradiction|exact (first_from_fun _ _ _ _ _ _ Hn Hf)]. }
    replace (c + i - c) with i in K by lia.
    assert (Li : c + i + length pat <= length data) by apply Hf.
    assert (LF : length (firstn i (skipn c data)) = i) by (rewrite firstn_length, skipn_length; lia).
    destruct K as (r' & E & K1 & K2 & K3 & K4 & K5 & K6 & K7 & K8 & (rest & K9 & K10) & K11).
    { unfold safe in *. rewrite LF in HS. exact HS. }
    rewrite E. cbn [bind]. destruct limit as [l|]; [|discriminate Ek]. cbn [left] in Ek. inversion Ek.
    rewrite (proj2 (Nat.ltb_ge num l)) by lia. exists r'. rewrite Nat.add_0_r. split; auto.
    split; [rewrite K7, app_length; lia|]. split; auto. exists rest. split; auto.
    rewrite K9 in K10. rewrite !app_length, LF in K10. lia.
  - destruct (RFind_alloc r c out HA) as (next & Hn & K).
    apply (first_skip pat data c (Some i) Lc) in Hf. cbn [option_map] in Hf.
    assert (next = Some (c + i)) as ->.
    { destruct next as [j|]; [exact (first_from_fun _ _ _ _ _ _ (proj2 Hn) Hf)|].
      destruct Hn as [Hn|Hn]; [contradiction|exact (first_from_fun _ _ _ _ _ _ Hn Hf)]. }
    replace (c + i - c) with i in K by lia.
    assert (Hocc : occurs eq pat data (c + i)) by apply Hf.
    assert (Li : c + i + length pat <= length data) by apply Hf.
    assert (LF : length (firstn i (skipn c data)) = i) by (rewrite firstn_length, skipn_length; lia).
    rewrite !app_length, LF in HS.
    destruct K as (r1 & E & K1 & K2 & K3 & K4 & K5 & K6 & K7 & K8 & (rest & K9 & K10) & K11 & K12).
    { unfold safe in *. destruct HS; [auto|right; lia]. }
    rewrite E. cbn [bind].
    assert (Hl : (match limit with Some l => (num <? l)%nat | None => true end) = true).
    { destruct limit as [l|]; auto. subst k. cbn [left room] in Hr. apply Nat.ltb_lt.
      destruct (l - num) eqn:Q; [destruct Hr|lia]. }
    rewrite Hl.
    destruct (Replace_alloc r1 (c + i) (out ++ firstn i (skipn c data)) K1 K3 K4 K11 Hocc Hp) as (r2 & E2 & HA2 & X1 & X2 & X3).
    { rewrite K7, app_length, LF. reflexivity. }
    { rewrite app_length, LF. lia. }
    { eauto. }
    { unfold safe in *. destruct HS as [HS|HS]; [auto|]. destruct K12 as [K12|K12]; [auto|]. right. rewrite app_length, LF, K12. lia. }
    rewrite E2. cbn [bind].
    destruct (IH (c + i + length pat) ((out ++ firstn i (skipn c data)) ++ rep) r2 (S num) fuel) as (r' & E' & P1 & P2 & P3).
    { apply skip_more. }
    { subst k. destruct limit as [l|]; cbn [left less] in *; auto. apply Nat.ltb_lt in Hl.
      destruct (l - num) eqn:Q; [lia|]. f_equal. lia. }
    { destruct limit as [l|]; auto. apply Nat.ltb_lt in Hl. lia. }
    { exact HA2. }
    { unfold safe in *. destruct HS as [HS|HS]; [auto|]. destruct K12 as [K12|K12]; [auto|]. destruct X3 as [X3|X3]; [auto|].
      right. rewrite !app_length, LF, X3, K12. lia. }
    { rewrite !skipn_length in *. assert (1 <= length pat) by (destruct pat; cbn; [congruence|lia]). lia. }
    exists r'. rewrite X1, K5 in *. replace (num + S n) with (S num + n) by lia. split; auto.
    rewrite <- !app_assoc in *. split; auto.
Qed.

(** Static result: [out] is the whole text so far, of which the first [cap] elements are stored. *)
Definition static_state (b0 : list N) (r : replacer) (c : nat) (out : list N) : Prop :=
  at_pos (rfind r) c /\ rdata r = data /\ rsrc r = c /\ rsrcend r = length data /\ ralloc r = false /\
  rsize r = length b0 /\ rpos r = length (firstn (length b0) out) /\
  rbuf r = firstn (length b0) out ++ skipn (length (firstn (length b0) out)) b0.

Lemma static_put (b0 out s : list N) n : length (firstn (length b0) out) + n <= length b0 -> n = length s ->
  blit (firstn (length b0) out ++ skipn (length (firstn (length b0) out)) b0) (length (firstn (length b0) out)) s =
  Ok ((firstn (length b0) out ++ s) ++ skipn (length (firstn (length b0) out ++ s)) b0).
Proof.
  intros L ->. rewrite blit_end by (rewrite skipn_length; lia). rewrite <- app_assoc, skipn_skipn, app_length.
  do 4 f_equal. lia.
Qed.

Lemma firstn_more {A} (a b : list A) cap : firstn cap (a ++ b) = firstn cap a ++ firstn (cap - length (firstn cap a)) b.
Proof.
  rewrite firstn_app. f_equal. destruct (Nat.le_gt_cases cap (length a)) as [L|L].
  - rewrite (firstn_length_le a L). replace (cap - length a) with 0 by lia. now rewrite Nat.sub_diag.
  - rewrite (firstn_all2 a) by lia. reflexivity.
Qed.

Lemma firstn_full {A} (a b : list A) cap : length (firstn cap a) = cap -> firstn cap (a ++ b) = firstn cap a.
Proof. intros E. rewrite firstn_more, E, Nat.sub_diag. cbn. apply app_nil_r. Qed.

Lemma RFind_static b0 r c out : static_state b0 r c out ->
  exists next, (match next with Some i => pat <> [] /\ first_from eq pat data c (Some i) | None => pat = [] \/ first_from eq pat data c None end) /\
  let dist := (match next with Some i => i | None => length data end) - c in
  let out' := out ++ firstn dist (skipn c data) in
  exists r' next', RFindNext eq uninit alt r usemem = Ok (r', next') /\
    rdata r' = data /\ rsrc r' = c /\ rsrcend r' = length data /\ ralloc r' = false /\ rsize r' = length b0 /\
    rpos r' = length (firstn (length b0) out') /\ rbuf r' = firstn (length b0) out' ++ skipn (length (firstn (length b0) out')) b0 /\
    (next' = next /\ (forall i, next = Some i -> searchR (rfind r') (Searching pat data (S i))) \/
     next' = None /\ length (firstn (length b0) out') = length b0 /\ length b0 < length out').
Proof.
  intros (HA & HD & HS & HE & HL & HZ & HP & HB).
  destruct (find_at (rfind r) c HA) as (f' & next & EF & HF). exists next.
  assert (Lc : c <= length data) by apply HA.
  assert (Ld : c + ((match next with Some i => i | None => length data end) - c) <= length data).
  { destruct next as [i|]; [|lia]. destruct HF as (_ & (H1 & [H2 _] & _) & _). lia. }
  split. { destruct next; tauto. }
  set (dist := (match next with Some i => i | None => length data end) - c) in *. cbv zeta.
  unfold RFindNext. rewrite EF. cbn [bind]. rewrite HS, HE, HL, HP, HD, HZ, HB.
  replace (match next with Some n => n | None => length data end - c) with dist by reflexivity.
  cbn [andb]. rewrite orb_false_r.
  set (t := firstn (length b0) out) in *.
  assert (Lt : length t <= length b0) by (unfold t; rewrite firstn_length; lia).
  assert (PUT : forall n, c + n <= length data -> length t + n <= length b0 ->
     (if (n =? 0)%nat then Ok (t ++ skipn (length t) b0)
      else let* s := slice data c n in blit (t ++ skipn (length t) b0) (length t) s) =
     Ok ((t ++ firstn n (skipn c data)) ++ skipn (length (t ++ firstn n (skipn c data))) b0)).
  { intros n L1 L2. destruct (Nat.eqb_spec n 0) as [->|]; [cbn [firstn]; now rewrite !app_nil_r|].
    destruct (slice_data c n L1) as [-> L3]. cbn [bind]. apply (static_put b0 out _ n); auto. }
  assert (OUT : firstn (length b0) (out ++ firstn dist (skipn c data)) = t ++ firstn (Nat.min dist (length b0 - length t)) (skipn c data)).
  { rewrite firstn_more. fold t. rewrite firstn_firstn. f_equal. f_equal. lia. }
  rewrite OUT.
  destruct (Nat.ltb_spec (length b0) (length t + dist)) as [G|G]; cbn [bind].
  - replace (Nat.min dist (length b0 - length t)) with (length b0 - length t) by lia.
    rewrite PUT by lia. cbn [bind]. do 2 eexists. split; [reflexivity|]. cbn.
    destruct (slice_data c (length b0 - length t) ltac:(lia)) as [_ L3].
    repeat match goal with |- _ /\ _ => split; [solve [auto|rewrite app_length; lia]|] end.
    right. split; auto. rewrite app_length, L3. split; [lia|].
    destruct (slice_data c dist ltac:(lia)) as [_ L4]. rewrite app_length, L4.
    assert (length t <= length out) by (unfold t; rewrite firstn_length; lia). lia.
  - replace (Nat.min dist (length b0 - length t)) with dist by lia.
    rewrite PUT by lia. cbn [bind]. do 2 eexists. split; [reflexivity|]. cbn.
    destruct (slice_data c dist ltac:(lia)) as [_ L3].
    repeat match goal with |- _ /\ _ => split; [solve [auto|rewrite app_length; lia]|] end.
    left. split; auto. intros i ->. apply HF.
Qed.

Lemma Replace_static b0 r i out : rdata r = data -> rsrcend r = length data -> ralloc r = false -> rsize r = length b0 ->
  searchR (rfind r) (Searching pat data (S i)) -> occurs eq pat data i -> pat <> [] ->
  rpos r = length (firstn (length b0) out) ->
  rbuf r = firstn (length b0) out ++ skipn (length (firstn (length b0) out)) b0 ->
  exists r', Replace uninit alt r rep 0 = Ok r' /\ static_state b0 r' (i + length pat) (out ++ rep).
Proof.
  intros HD HE HL HZ HS HO Hp HP HB.
  destruct (skip_at (rfind r) i HS HO Hp) as (f' & ES & HA).
  assert (Lc : i + length pat <= length data) by apply HO.
  unfold Replace. rewrite HP, HL, HZ, HB. rewrite ES.
  set (t := firstn (length b0) out) in *.
  assert (Lt : length t <= length b0) by (unfold t; rewrite firstn_length; lia).
  set (n := Nat.min (length rep) (length b0 - length t)).
  assert (OUT : firstn (length b0) (out ++ rep) = t ++ firstn n rep).
  { rewrite firstn_more. fold t. f_equal. unfold n. destruct (Nat.le_gt_cases (length rep) (length b0 - length t)).
    - rewrite Nat.min_l by lia. now rewrite !firstn_all2 by lia.
    - now rewrite Nat.min_r by lia. }
  assert (Ln : length (firstn n rep) = n) by (rewrite firstn_length; unfold n; lia).
  assert (FIN : exists r', Ok (Replacer f' (rdata r) (rgrow r) (rextra r) (Nat.min (i + length pat) (rsrcend r)) (rsrcend r) false
       ((t ++ firstn n rep) ++ skipn (length (t ++ firstn n rep)) b0) (length b0) (length t + n)) = Ok r' /\
     static_state b0 r' (i + length pat) (out ++ rep)).
  { eexists. split; [reflexivity|]. unfold static_state. cbn. rewrite OUT, app_length, Ln, HE.
    repeat match goal with |- _ /\ _ => split; [solve [auto|lia]|] end. reflexivity. }
  destruct (Nat.eqb_spec (length rep) 0) as [E0|E0].
  - cbn [bind]. assert (n = 0) as N0 by (unfold n; lia). rewrite N0 in FIN. cbn [firstn] in FIN.
    rewrite app_nil_r, Nat.add_0_r in FIN. exact FIN.
  - assert (SL : slice rep 0 n = Ok (firstn n rep)) by (rewrite slice_in by (unfold n; lia); reflexivity).
    destruct (Nat.ltb_spec (length b0) (length t + length rep)) as [G|G]; cbn [bind].
    + replace (length b0 - length t) with n by (unfold n; lia). rewrite SL. cbn [bind].
      unfold t at 1 2 3. rewrite (static_put b0 out (firstn n rep) n); [|fold t; unfold n; lia|auto]. cbn [bind]. exact FIN.
    + assert (Hn : length rep = n) by (unfold n; lia). rewrite Hn. rewrite SL. cbn [bind].
      unfold t at 1 2 3. rewrite (static_put b0 out (firstn n rep) n); [|fold t; unfold n; lia|auto]. cbn [bind].
      exact FIN.
Qed.

Lemma loop_static b0 limit : forall k tail out2 n, replaced_cut eq pat rep k tail out2 n ->
  forall c out r num fuel, tail = skipn c data -> k = left limit num ->
  (match limit with Some l => num <= l | None => True end) ->
  static_state b0 r c out -> length tail < fuel ->
  exists r' m, replace_loop eq uninit alt fuel r usemem rep limit num = Ok (r', num + m) /\
    m <= n /\ (length (out ++ out2) <= length b0 -> m = n) /\
    rpos r' = length (firstn (length b0) (out ++ out2)) /\
    rbuf r' = firstn (length b0) (out ++ out2) ++ skipn (length (firstn (length b0) (out ++ out2))) b0.
Proof.
  intros k tail out2 n H. induction H as [k tail HN|tail i Hp Hf|k tail i out2 n Hr Hp Hf H IH];
    intros c out r num fuel Et Ek Hlim HA HFu; destruct fuel as [|fuel]; try lia; cbn [replace_loop];
    assert (Lc : c <= length data) by apply HA; rewrite Et in *;
    destruct (RFind_static b0 r c out HA) as (next & Hn & r' & next' & E & K1 & K2 & K3 & K4 & K5 & K6 & K7 & K8).
  - assert (next = None) as ->.
    { destruct next as [i|]; auto. destruct Hn as [Hp Hn]. destruct HN as [HN|HN]; [contradiction|].
      apply (first_skip pat data c None Lc) in HN. pose proof (first_from_fun _ _ _ _ _ _ Hn HN). discriminate. }
    assert (next' = None) as -> by (destruct K8 as [[K8 _]|[K8 _]]; auto).
    rewrite E. cbn [bind]. exists r', 0. rewrite Nat.add_0_r. split; auto.
    rewrite (firstn_all2 (skipn c data)) in K6, K7 by (rewrite skipn_length; lia). auto.
  - apply (first_skip pat data c (Some i) Lc) in Hf. cbn [option_map] in Hf.
    assert (next = Some (c + i)) as ->.
    { destruct next as [j|]; [exact (first_from_fun _ _ _ _ _ _ (proj2 Hn) Hf)|].
      destruct Hn as [Hn|Hn]; [contradiction|exact (first_from_fun _ _ _ _ _ _ Hn Hf)]. }
    replace (c + i - c) with i in * by lia.
    rewrite E. cbn [bind]. destruct limit as [l|]; [|discriminate Ek]. cbn [left] in Ek. inversion Ek.
    exists r', 0. rewrite Nat.add_0_r. split; auto.
    destruct next'; auto. rewrite (proj2 (Nat.ltb_ge num l)) by lia. reflexivity.
  - apply (first_skip pat data c (Some i) Lc) in Hf. cbn [option_map] in Hf.
    assert (next = Some (c + i)) as ->.
    { destruct next as [j|]; [exact (first_from_fun _ _ _ _ _ _ (proj2 Hn) Hf)|].
      destruct Hn as [Hn|Hn]; [contradiction|exact (first_from_fun _ _ _ _ _ _ Hn Hf)]. }
    replace (c + i - c) with i in * by lia.
    assert (Hocc : occurs eq pat data (c + i)) by apply Hf.
    assert (Li : c + i + length pat <= length data) by apply Hf.
    rewrite E. cbn [bind]. rewrite app_assoc.
    destruct K8 as [[-> K8]|(-> & K8 & K9)].
    2:{ exists r', 0. rewrite Nat.add_0_r. split; auto. split; [lia|].
        split. { rewrite app_length. lia. }
        rewrite (firstn_full (out ++ firstn i (skipn c data)) (rep ++ out2) (length b0) K8). auto. }
    assert (Hl : (match limit with Some l => (num <? l)%nat | None => true end) = true).
    { destruct limit as [l|]; auto. subst k. cbn [left room] in Hr. apply Nat.ltb_lt.
      destruct (l - num) eqn:Q; [destruct Hr|lia]. }
    rewrite Hl.
    destruct (Replace_static b0 r' (c + i) (out ++ firstn i (skipn c data)) K1 K3 K4 K5 (K8 _ eq_refl) Hocc Hp K6 K7) as (r2 & E2 & HA2).
    rewrite E2. cbn [bind].
    destruct (IH (c + i + length pat) ((out ++ firstn i (skipn c data)) ++ rep) r2 (S num) fuel) as (r3 & m & E' & P1 & P2 & P3 & P4).
    { apply skip_more. }
    { subst k. destruct limit as [l|]; cbn [left less] in *; auto. apply Nat.ltb_lt in Hl.
      destruct (l - num) eqn:Q; [lia|]. f_equal. lia. }
    { destruct limit as [l|]; auto. apply Nat.ltb_lt in Hl. lia. }
    { exact HA2. }
    { rewrite !skipn_length in *. assert (1 <= length pat) by (destruct pat; cbn; [congruence|lia]). lia. }
    exists r3, (S m). replace (num + S m) with (S num + m) by lia. split; auto. rewrite <- !app_assoc in *.
    split; [lia|]. split; auto.
Qed.

(** ** The two functions *)
Lemma start f : SetPattern eq new_finder pat = Ok f -> at_pos (SetData f data) 0.
Proof.
  intros E. destruct pat as [|p pat'] eqn:EP.
  - inversion E. split; [lia|]. right. split; auto. right. unfold SetData. cbn.
    destruct (length data - 0 =? 0)%nat; cbn; auto.
  - rewrite <- EP in *. destruct (SetPattern_ok eq new_finder pat) as (l & a & b & d & E2 & C). { rewrite EP. discriminate. }
    rewrite E2 in E. inversion E. apply at_resume; [lia|]. apply SetData_ok. unfold fok. cbn [fpat flast fmin fmin2 fmid flastpos].
    split; auto. split; [rewrite EP; discriminate|]. auto.
Qed.

Lemma setpattern_total : exists f, SetPattern eq new_finder pat = Ok f.
Proof.
  destruct pat as [|p pat'] eqn:EP; [eexists; reflexivity|]. rewrite <- EP.
  destruct (SetPattern_ok eq new_finder pat) as (l & a & b & d & E2 & C). { rewrite EP. discriminate. }
  eexists. exact E2.
Qed.

Lemma left_zero limit : left limit 0 = limit.
Proof. destruct limit; cbn; auto. now rewrite Nat.sub_0_r. Qed.

Lemma ReplaceAll_ok limit grow extra fuel out n : replaced_cut eq pat rep limit data out n ->
  length data < fuel ->
  alt = true \/ length out <= length data + growth pat rep grow ->
  exists rest, ReplaceAll eq uninit alt fuel data pat rep limit grow extra usemem = Ok (out ++ rest, length out, n) /\
    extra <= length rest /\ (limit = None -> length rest = extra).
Proof.
  intros R L S. destruct setpattern_total as (f & E). unfold ReplaceAll. rewrite E. cbn [bind].
  destruct (loop_alloc limit limit data out n R 0 [] (RSetData uninit f (growth pat rep grow) extra data None) 0 fuel)
    as (r' & E' & P1 & (rest & P2 & P3) & P4); auto.
  - symmetry. apply left_zero.
  - destruct limit; lia.
  - unfold alloc_state, RSetData. cbn. split; [exact (start f E)|].
    repeat match goal with |- _ /\ _ => split; [solve [auto|lia]|] end.
    exists (uninit (length data + growth pat rep grow + extra)). auto.
  - rewrite E'. cbn [bind]. rewrite P1, P2. exists rest. split; auto. split; auto. intros ->.
    rewrite P2, P1, app_length in P4. cbn [rextra RSetData] in P4. cbn [app] in P4. lia.
Qed.

Lemma StaticReplaceAll_ok limit grow extra fuel b0 out n : replaced_cut eq pat rep limit data out n ->
  length data < fuel ->
  exists m, StaticReplaceAll eq uninit alt fuel b0 data pat rep limit grow extra usemem =
     Ok (firstn (length b0) out ++ skipn (length (firstn (length b0) out)) b0, length (firstn (length b0) out), m) /\
    m <= n /\ (length out <= length b0 -> m = n).
Proof.
  intros R L. destruct setpattern_total as (f & E). unfold StaticReplaceAll. rewrite E. cbn [bind].
  destruct (loop_static b0 limit limit data out n R 0 [] (RSetData uninit f (growth pat rep grow) extra data (Some b0)) 0 fuel)
    as (r' & m & E' & P1 & P2 & P3 & P4); auto.
  - symmetry. apply left_zero.
  - destruct limit; lia.
  - unfold static_state, RSetData. cbn. split; [exact (start f E)|]. rewrite firstn_nil. cbn.
    repeat match goal with |- _ /\ _ => split; [solve [auto|lia]|] end. reflexivity.
  - rewrite E'. cbn [bind]. exists m. cbn [app] in *. rewrite P3, P4. auto.
Qed.
End Proofs.
