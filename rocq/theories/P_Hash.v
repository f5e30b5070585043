(** The ordered hash model refines its specification. *)
From Verif Require Import Base S_Seq S_Hash M_Dll M_List M_Hash P_Dll P_List.

(** ** Chains *)
Definition slotn (h : N) (size : nat) : nat := N.to_nat (N.modulo h (N.of_nat size)).

Lemma slot_Ok h size : 0 < size -> slot h size = Ok (slotn h size).
Proof. intros H. unfold slot. rewrite eqb_0 by lia. reflexivity. Qed.
Lemma slotn_lt h size : 0 < size -> slotn h size < size.
Proof.
  intros H. unfold slotn. pose proof (N.mod_lt h (N.of_nat size)) as L.
  assert (N.of_nat size <> 0%N) by lia. specialize (L H0). lia.
Qed.

Definition htab (H : links) (T : list nat) (K : nat -> N) (xs : list nat) : Prop :=
  0 < length T /\
  exists ch, forall s, s < length T ->
    nth_error T s = Some (hd 0 (ch s)) /\ NoDup (ch s) /\ seg H 0 (ch s) 0 /\
    (forall x, In x (ch s) <-> In x xs /\ slotn (K x) (length T) = s).

Lemma htab_frame H H' T K K' xs xs' :
  (forall x, In x xs -> nx H' x = nx H x /\ pv H' x = pv H x) ->
  (forall x, In x xs -> K' x = K x) -> (forall x, In x xs' <-> In x xs) ->
  htab H T K xs -> htab H' T K' xs'.
Proof.
  intros HH HK HX (Hl & ch & Hc). split; auto. exists ch. intros s Hs.
  destruct (Hc s Hs) as (a & b & c & d). split; auto. split; auto. split.
  - apply seg_frame with H; auto. intros x Hx. apply HH. now apply d in Hx.
  - intros x. rewrite d, HX. split; intros [i1 i2]; split; auto; [rewrite HK|rewrite <- HK]; auto.
Qed.

Lemma htab_nil H K n : 0 < n -> htab H (repeat 0 n) K [].
Proof.
  intros Hn. split; [rewrite repeat_length; auto|]. exists (fun _ => []). intros s Hs. rewrite repeat_length in Hs.
  split; [cbn; now apply nth_error_repeat|]. split; [constructor|]. split; [cbn; auto|]. cbn; tauto.
Qed.

Lemma rd_Ok {A} (T : list A) s v : nth_error T s = Some v -> rd T s = Ok v.
Proof. unfold rd. now intros ->. Qed.

Lemma chain_front_ok al H T K xs x xs' :
  htab H T K xs -> ~ In x xs -> x <> 0 -> ~ In 0 xs -> al x = true -> (forall y, In y xs -> al y = true) ->
  pv H x = 0 -> (forall y, In y xs' <-> y = x \/ In y xs) ->
  exists H' T', chain_front al H T (K x) x = Ok (H', T') /\ length T' = length T /\
    htab H' T' K xs' /\ same_off (x :: xs) H H'.
Proof.
  intros (Hl & ch & Hc) Xn X0 Z Ax Al Px HX. unfold chain_front. rewrite slot_Ok by auto. cbn [bind].
  set (s := slotn (K x) (length T)). pose proof (slotn_lt (K x) _ Hl) as Hs. fold s in Hs.
  destruct (Hc s Hs) as (Hn & Nd & Sg & Hin). rewrite (rd_Ok _ _ _ Hn). cbn [bind].
  rewrite setf_Ok by auto. cbn [bind].
  assert (exists pv1, (if Nat.eqb (hd 0 (ch s)) 0 then Ok (pv H) else setf al (pv H) (hd 0 (ch s)) x) = Ok pv1
    /\ (ch s <> [] -> pv1 (hd 0 (ch s)) = x) /\ (forall y, ch s = [] \/ y <> hd 0 (ch s) -> pv1 y = pv H y)) as (pv1 & Ep & P1 & P2).
  { destruct (ch s) as [|c r] eqn:Ec.
    - cbn. eexists; split; [reflexivity|]. split; [congruence|auto].
    - cbn [hd]. assert (In c xs) by (apply Hin; now left).
      rewrite eqb_0 by (intros ->; auto). rewrite setf_Ok by auto. eexists; split; [reflexivity|].
      split; [intros _; apply fupd_same|]. intros y [?|?]; [discriminate|now apply fupd_other]. }
  rewrite Ep. cbn [bind].
  assert (Hs' : (s <? length T) = true) by now apply Nat.ltb_lt.
  unfold wr. rewrite Hs'. cbn [bind].
  eexists _, _; split; [reflexivity|]. split; [apply upd_length|]. split.
  - split; [rewrite upd_length; auto|]. exists (fupd ch s (x :: ch s)).
    intros t Ht. rewrite upd_length in Ht |- *.
    destruct (Nat.eq_dec t s) as [->|D].
    + rewrite fupd_same. split; [now apply upd_nth_same|].
      assert (Nx : ~ In x (ch s)) by (intros K1; apply Hin in K1; tauto).
      split; [now constructor|]. split.
      * cbn [seg nx pv]. rewrite fupd_same. split.
        { rewrite P2; auto. destruct (ch s) as [|c r]; [now left|right]. cbn. intros ->. apply Nx; now left. }
        split; auto. destruct (ch s) as [|c r] eqn:Ec; [cbn; auto|].
        apply seg_set_first with H 0; auto; cbn [nx pv].
        -- intros y Hy. apply fupd_other. intros ->; auto.
        -- intros y Hy. apply P2. right. cbn. intros ->. apply NoDup_cons_iff in Nd as [n1 _]; auto.
        -- apply P1. discriminate.
      * intros y. cbn [In]. rewrite Hin, HX. split.
        { intros [<-|[h1 h2]]; auto. }
        { intros [[->|h1] h2]; auto. }
    + rewrite fupd_other by auto. rewrite upd_nth_other by auto.
      destruct (Hc t Ht) as (a & b & c & d). split; auto. split; auto. split.
      * apply seg_frame with H; auto. cbn [nx pv]. intros y Hy. apply d in Hy as [h1 h2]. split.
        -- apply fupd_other. intros ->; auto.
        -- apply P2. destruct (ch s) as [|e r] eqn:Ec; [now left|right]. cbn. intros ->.
           assert (In e (ch s)) by (rewrite Ec; now left). rewrite Ec in H0. apply Hin in H0 as [_ h3]. congruence.
      * intros y. rewrite d, HX. split; [tauto|]. intros [[->|h1] h2]; auto. exfalso. apply D. now rewrite <- h2.
  - intros y Hy. cbn [nx pv]. cbn [In] in Hy. split.
    + apply fupd_other. intros ->; auto.
    + apply P2. destruct (ch s) as [|e r] eqn:Ec; [now left|right]. cbn. intros ->. apply Hy. right.
      apply Hin. now left.
Qed.

Lemma unchain_ok al H T K xs x xs' :
  htab H T K xs -> In x xs -> ~ In 0 xs -> (forall y, In y xs -> al y = true) ->
  (forall y, In y xs' <-> y <> x /\ In y xs) ->
  exists H' T', unchain al H T (K x) x = Ok (H', T') /\ length T' = length T /\
    htab H' T' K xs' /\ nx H' x = 0 /\ pv H' x = 0 /\ same_off xs H H'.
Proof.
  intros (Hl & ch & Hc) Ix Z Al HX. unfold unchain. rewrite slot_Ok by auto. cbn [bind].
  set (s := slotn (K x) (length T)). pose proof (slotn_lt (K x) _ Hl) as Hs. fold s in Hs.
  destruct (Hc s Hs) as (Hn & Nd & Sg & Hin).
  assert (Ic : In x (ch s)) by (apply Hin; auto).
  apply in_split in Ic as (l & r & Ec).
  assert (Ax : al x = true) by auto.
  assert (X0 : x <> 0) by (intros ->; auto).
  rewrite Ec in Nd, Sg. destruct (NoDup_mid _ _ _ Nd) as (Pl & Pr & Nl & Nr & Nlr).
  pose proof (seg_last_pv _ _ _ _ Sg l x r eq_refl) as [Enx Epv].
  rewrite !getf_Ok by auto. cbn [bind]. rewrite Enx, Epv.
  assert (Mem : forall y, In y l \/ In y r -> In y xs).
  { intros y Hy. apply Hin. rewrite Ec. apply in_or_app. cbn. tauto. }
  assert (exists nx1 T1, (if negb (Nat.eqb (last l 0) 0) then let* f := setf al (nx H) (last l 0) (hd 0 r) in Ok (f, T)
    else let* t := rd T s in if Nat.eqb t x then let* T1 := wr T s (hd 0 r) in Ok (nx H, T1) else Ok (nx H, T)) = Ok (nx1, T1)
    /\ length T1 = length T /\ nth_error T1 s = Some (hd 0 (l ++ r))
    /\ (forall t, t <> s -> nth_error T1 t = nth_error T t)
    /\ (l <> [] -> nx1 (last l 0) = hd 0 r) /\ (forall y, l = [] \/ y <> last l 0 -> nx1 y = nx H y)) as (nx1 & T1 & E1 & L1 & N1 & N2 & Q1 & Q2).
  { destruct l as [|c l].
    - cbn [last negb Nat.eqb app]. rewrite (rd_Ok _ _ _ Hn), Ec. cbn [bind app hd]. rewrite Nat.eqb_refl.
      unfold wr. apply Nat.ltb_lt in Hs as Hs'. rewrite Hs'. cbn [bind].
      eexists _, _; split; [reflexivity|]. split; [apply upd_length|]. split; [now apply upd_nth_same|].
      split; [intros; now apply upd_nth_other; auto|]. split; [congruence|auto].
    - assert (In (last (c :: l) 0) (c :: l)) by (apply last_in; discriminate).
      rewrite eqb_0 by (intros K1; apply Z; rewrite <- K1; auto). cbn [negb].
      rewrite setf_Ok by auto. cbn [bind]. eexists _, _; split; [reflexivity|]. split; auto.
      split; [rewrite Hn, Ec; reflexivity|]. split; auto. split; [intros _; apply fupd_same|].
      intros y [?|?]; [discriminate|now apply fupd_other]. }
  rewrite E1. cbn [bind]. rewrite getf_Ok by auto. cbn [bind].
  assert (nx1 x = hd 0 r) as ->.
  { rewrite Q2; auto. destruct l as [|c l]; [now left|right]. intros K1. apply Pl. rewrite K1. apply last_in. discriminate. }
  assert (exists pv1, (if negb (Nat.eqb (hd 0 r) 0) then setf al (pv H) (hd 0 r) (last l 0) else Ok (pv H)) = Ok pv1
    /\ (r <> [] -> pv1 (hd 0 r) = last l 0) /\ (forall y, r = [] \/ y <> hd 0 r -> pv1 y = pv H y)) as (pv1 & E2 & P1 & P2).
  { destruct r as [|c r].
    - cbn. eexists; split; [reflexivity|]. split; [congruence|auto].
    - cbn [hd]. rewrite eqb_0 by (intros ->; apply Z, Mem; right; now left). cbn [negb bind].
      rewrite setf_Ok by (apply Al, Mem; right; now left).
      eexists; split; [reflexivity|]. split; [intros _; rewrite fupd_same; auto|].
      intros y [?|?]; [discriminate|now apply fupd_other]. }
  rewrite E2. cbn [bind]. rewrite !setf_Ok by auto. cbn [bind].
  eexists _, _; split; [reflexivity|]. split; auto. cbn [nx pv].
  split; [|split; [apply fupd_same|split; [apply fupd_same|]]].
  - split; [lia|]. exists (fupd ch s (l ++ r)). intros t Ht. rewrite L1 in *.
    destruct (Nat.eq_dec t s) as [->|D].
    + rewrite fupd_same. split; auto. split; auto. split.
      * apply seg_app in Sg as [S1 S2]. cbn [hd] in S1. cbn [seg] in S2. destruct S2 as (_ & _ & S3).
        apply seg_app. split.
        -- apply seg_set_last with H x; auto; cbn [nx pv].
           ++ intros y Hy. rewrite fupd_other by (intros ->; auto). apply P2.
              destruct r as [|b r]; [now left|right]. cbn [hd]. intros ->.
              apply (NoDup_app_disj _ _ Nd b); auto. right; now left.
           ++ intros y Hy Dy. rewrite fupd_other by (intros ->; auto). apply Q2. now right.
           ++ intros Hne. rewrite fupd_other; auto. intros K1. apply Pl. rewrite <- K1. now apply last_in.
        -- destruct r as [|b r]; [cbn; auto|].
           apply seg_set_first with H x; auto; cbn [nx pv].
           ++ intros y Hy. rewrite fupd_other by (intros ->; auto). apply Q2.
              destruct l as [|a l]; [now left|right]. intros ->.
              apply (NoDup_app_disj _ _ Nd (last (a :: l) 0)); [apply last_in; discriminate|]. now right.
           ++ intros y Hy. rewrite fupd_other by (intros ->; apply Pr; now right). apply P2.
              right. cbn [hd]. intros ->. apply NoDup_cons_iff in Nr as [K1 _]; auto.
           ++ rewrite fupd_other by (intros ->; apply Pr; now left). apply P1. discriminate.
      * intros y. rewrite HX. split.
        -- intros Hy. apply in_app_or in Hy. assert (y <> x) by (intros ->; tauto).
           assert (In y (ch s)) as Hy2 by (rewrite Ec; apply in_or_app; cbn; tauto). apply Hin in Hy2. tauto.
        -- intros [[h1 h2] h3]. assert (In y (ch s)) as Hy2 by (apply Hin; auto). rewrite Ec in Hy2.
           apply in_app_or in Hy2. apply in_or_app. cbn in Hy2. destruct Hy2 as [?|[?|?]]; auto. congruence.
    + rewrite fupd_other by auto. rewrite N2 by auto. destruct (Hc t Ht) as (a & b & c & d).
      split; auto. split; auto. split.
      * apply seg_frame with H; auto. cbn [nx pv]. intros y Hy. apply d in Hy as [h1 h2].
        assert (Ny : ~ In y (ch s)) by (rewrite Hin; intros [_ h3]; congruence).
        assert (y <> x) by (intros ->; apply Ny; rewrite Ec; apply in_or_app; right; now left).
        rewrite !fupd_other by auto. split.
        -- apply Q2. destruct l as [|e l]; [now left|right]. intros ->. apply Ny. rewrite Ec.
           apply in_or_app; left. apply last_in. discriminate.
        -- apply P2. destruct r as [|e r]; [now left|right]. cbn. intros ->. apply Ny. rewrite Ec.
           apply in_or_app; right; right; now left.
      * intros y. rewrite d, HX. split; [|tauto]. intros [h1 h2]. split; auto. split; auto.
        intros ->. apply D. now rewrite <- h2.
  - intros y Hy. cbn [nx pv].
    assert (y <> x) by (intros ->; auto). rewrite !fupd_other by auto. split.
    + apply Q2. destruct l as [|e l]; [now left|right]. intros ->. apply Hy. apply Mem. left. apply last_in. discriminate.
    + apply P2. destruct r as [|e r]; [now left|right]. cbn. intros ->. apply Hy, Mem. right; now left.
Qed.

(** Re-attaching every node to an empty table. *)
Lemma rechain_ok al L K : forall todo done H T,
  htab H T K done -> seg L (last done 0) todo 0 -> NoDup (done ++ todo) -> ~ In 0 (done ++ todo) ->
  (forall y, In y (done ++ todo) -> al y = true) ->
  exists H' T', rechain (length todo) al L H K T (hd 0 todo) = Ok (H', T') /\ length T' = length T /\
    htab H' T' K (done ++ todo) /\ same_off (done ++ todo) H H'.
Proof.
  induction todo as [|x todo IH]; intros done H T Ht Sg Nd Z Al.
  - rewrite app_nil_r. eexists _, _; split; [reflexivity|]. split; auto. split; auto. intros y _; auto.
  - cbn [length rechain hd].
    assert (Ix : In x (done ++ x :: todo)) by (apply in_or_app; right; now left).
    destruct (NoDup_mid _ _ _ Nd) as (Pl & Pr & _).
    rewrite eqb_0 by (intros ->; auto). rewrite setf_Ok, getf_Ok by auto. cbn [bind].
    assert (Z' : ~ In 0 done) by (intros K1; apply Z, in_or_app; auto).
    destruct (chain_front_ok al (Links (nx H) (fupd (pv H) x 0)) T K done x (done ++ [x])) as (H1 & T1 & E1 & L1 & Ht1 & Off1); auto.
    { apply htab_frame with (4 := Ht); auto; [|tauto]. cbn. intros y Hy. split; auto. apply fupd_other. intros ->; auto. }
    { intros ->; auto. }
    { intros y Hy. apply Al, in_or_app; auto. }
    { cbn. apply fupd_same. }
    { intros y. rewrite in_app_iff. cbn. split; [intros [?|[?|[]]]; auto|intros [->|?]; auto]. }
    rewrite E1. cbn [bind]. rewrite getf_Ok by auto. cbn [bind].
    cbn [seg] in Sg. destruct Sg as (S1 & S2 & S3). rewrite S2.
    destruct (IH (done ++ [x]) H1 T1) as (H2 & T2 & E2 & L2 & Ht2 & Off2); auto.
    { now rewrite last_snoc. }
    { now rewrite <- app_assoc. }
    { now rewrite <- app_assoc. }
    { rewrite <- app_assoc. auto. }
    rewrite <- app_assoc in Ht2, Off2. cbn [app] in Ht2, Off2.
    exists H2, T2. split; [exact E2|]. split; [congruence|]. split; auto.
    intros y Hy. destruct (Off2 y Hy) as [-> ->].
    destruct (Off1 y) as [-> ->].
    { intros [->|K1]; [auto|]. apply Hy, in_or_app; auto. }
    cbn. split; auto. apply fupd_other. intros ->; auto.
Qed.

Lemma htab_any H T K xs : htab H T K xs -> 0 < length T.
Proof. now intros (a & _). Qed.

Lemma key_eqb_eq a b : key_eqb a b = true <-> a = b.
Proof.
  destruct a as [x|x], b as [y|y]; cbn; try (split; congruence).
  - rewrite Z.eqb_eq. split; congruence.
  - destruct (list_eq_dec N.eq_dec x y) as [->|D]; split; congruence.
Qed.
Lemma key_eqb_refl a : key_eqb a a = true.
Proof. now apply key_eqb_eq. Qed.

Section P.
Context {V : Type}.
Context (hash : nat -> bytes -> N).
Implicit Types (w : hworld V) (A : habs V).

Record HR w A : Prop := mkHR {
  H_alive : forall x, halive w x = true <-> hexists A x;
  H_node : forall x, nd w x = node A x;
  H_null : node A 0 = None;
  H_hk : forall x, hexists A x -> hk w x = carried A x;
  H_list : forall i, dlist (ll w) (hends (hashes w i)) (hseqs A i);
  H_num : forall i, hnum (hashes w i) = N.of_nat (length (hseqs A i));
  H_fn : forall i b, hfn (hashes w i) b = hash i b;
  H_tab : forall i, htab (hl w) (table (hashes w i)) (hk w) (hseqs A i);
  H_owned : forall i x, In x (hseqs A i) -> hexists A x;
  H_disj : forall i j x, In x (hseqs A i) -> In x (hseqs A j) -> i = j;
  H_uniq : forall i x y k v v', In x (hseqs A i) -> In y (hseqs A i) ->
    node A x = Some (k, v) -> node A y = Some (k, v') -> x = y;
  H_cached : forall i x k v, In x (hseqs A i) -> node A x = Some (k, v) -> carried A x = hash i (key_bytes k);
  H_loose : forall x, hexists A x -> ~ hattached A x ->
    nx (hl w) x = 0 /\ pv (hl w) x = 0 /\ (left A x = false -> nx (ll w) x = 0 /\ pv (ll w) x = 0) }.

Lemma HR_init f size : (forall i b, f i b = hash i b) -> (forall i, 0 < size i) -> HR (hinit f size) hstart.
Proof.
  intros Hf Hs. split; cbn; auto; try tauto.
  - intros x. unfold hexists; cbn. split; congruence.
  - intros i. rewrite eqb_0 by (specialize (Hs i); lia). cbn. repeat split; auto. constructor.
  - intros i. rewrite eqb_0 by (specialize (Hs i); lia). reflexivity.
  - intros i b. rewrite eqb_0 by (specialize (Hs i); lia). apply Hf.
  - intros i. rewrite eqb_0 by (specialize (Hs i); lia). cbn [table]. apply htab_nil; auto.
Qed.

Lemma HR_ext w A A' : HR w A -> (forall i, hseqs A i = hseqs A' i) -> (forall x, node A x = node A' x) ->
  (forall x, hexists A x -> carried A x = carried A' x) -> (forall x, hexists A x -> left A x = left A' x) -> HR w A'.
Proof.
  intros H E1 E2 E3 E4.
  assert (Ee : forall x, hexists A x <-> hexists A' x) by (intros x; unfold hexists; now rewrite E2).
  assert (Ea : forall x, hattached A x <-> hattached A' x).
  { intros x. split; intros [i K]; exists i; [rewrite <- E1|rewrite E1]; auto. }
  split.
  - intros x. rewrite <- Ee. apply (H_alive _ _ H).
  - intros x. rewrite <- E2. apply (H_node _ _ H).
  - rewrite <- E2. apply (H_null _ _ H).
  - intros x Hx. rewrite <- E3 by now apply Ee. apply (H_hk _ _ H). now apply Ee.
  - intros i. rewrite <- E1. apply (H_list _ _ H).
  - intros i. rewrite <- E1. apply (H_num _ _ H).
  - apply (H_fn _ _ H).
  - intros i. rewrite <- E1. apply (H_tab _ _ H).
  - intros i x. rewrite <- E1, <- Ee. apply (H_owned _ _ H).
  - intros i j x. rewrite <- !E1. apply (H_disj _ _ H).
  - intros i x y k v v'. rewrite <- !E1, <- !E2. apply (H_uniq _ _ H).
  - intros i x k v Hi Hn. rewrite <- E1 in Hi. rewrite <- E2 in Hn.
    rewrite <- E3 by (eapply H_owned; eauto). eapply (H_cached _ _ H); eauto.
  - intros x. rewrite <- Ee, <- Ea. intros Hx Ha. rewrite <- E4 by auto. apply (H_loose _ _ H); auto.
Qed.

Lemma hne0 w A x : HR w A -> hexists A x -> x <> 0.
Proof. intros H Hx ->. apply Hx. apply (H_null _ _ H). Qed.
Lemma halive_in w A i x : HR w A -> In x (hseqs A i) -> halive w x = true.
Proof. intros H Hi. apply (H_alive _ _ H). eapply H_owned; eauto. Qed.
Lemma no0 w A i : HR w A -> ~ In 0 (hseqs A i).
Proof. intros H. apply (H_list _ _ H i). Qed.

Lemma node_of_Ok w A x p : HR w A -> node A x = Some p -> node_of w x = Ok p.
Proof.
  intros H Hn. unfold node_of. rewrite (proj2 (H_alive _ _ H x)) by (unfold hexists; congruence).
  now rewrite (H_node _ _ H), Hn.
Qed.

(** ** Lookup *)
Lemma lookup_cases A i k : ~ In 0 (hseqs A i) ->
  (lookup A i k = 0 /\ forall x, In x (hseqs A i) -> has_key A k x = false) \/
  (lookup A i k <> 0 /\ In (lookup A i k) (hseqs A i) /\ has_key A k (lookup A i k) = true).
Proof.
  intros Z. unfold lookup. destruct (filter (has_key A k) (hseqs A i)) as [|x r] eqn:E; cbn [hd].
  - left. split; auto. intros x Hx. destruct (has_key A k x) eqn:Ek; auto.
    assert (In x (filter (has_key A k) (hseqs A i))) by (apply filter_In; auto). rewrite E in H. destruct H.
  - right. assert (In x (filter (has_key A k) (hseqs A i))) as Hx by (rewrite E; now left).
    apply filter_In in Hx as [h1 h2]. split; auto. intros ->; auto.
Qed.

Lemma has_key_true A k x : has_key A k x = true <-> exists v, node A x = Some (k, v).
Proof.
  unfold has_key. destruct (node A x) as [[k' v]|].
  - rewrite key_eqb_eq. split; [intros ->; eauto|intros (v' & E); congruence].
  - split; [discriminate|intros (v & E); discriminate].
Qed.

Lemma lookup_unique w A i k x v : HR w A -> In x (hseqs A i) -> node A x = Some (k, v) -> lookup A i k = x.
Proof.
  intros H Hi Hn. destruct (lookup_cases A i k (no0 _ _ _ H)) as [[_ K]|(_ & K1 & K2)].
  - specialize (K x Hi). rewrite (proj2 (has_key_true A k x)) in K by eauto. discriminate.
  - apply has_key_true in K2 as (v' & K2). eapply (H_uniq _ _ H); eauto.
Qed.

Lemma matches_Ok w A i k x : HR w A -> In x (hseqs A i) ->
  matches w k (hash i (key_bytes k)) x = Ok (has_key A k x).
Proof.
  intros H Hi. unfold matches. pose proof (H_owned _ _ H _ _ Hi) as Hx.
  unfold has_key. unfold hexists in Hx. destruct (node A x) as [[k' v]|] eqn:En; [|congruence].
  rewrite (node_of_Ok _ _ _ _ H En). cbn [bind].
  rewrite getf_Ok by (eapply halive_in; eauto). cbn [bind].
  rewrite (H_hk _ _ H) by (unfold hexists; congruence). rewrite (H_cached _ _ H _ _ _ _ Hi En).
  destruct k as [z|s], k' as [z'|s']; cbn [key_eqb]; auto.
  f_equal. destruct (list_eq_dec N.eq_dec s' s) as [->|D]; cbn; [now rewrite N.eqb_refl|].
  now rewrite andb_false_r.
Qed.

Lemma find_chain w A i k n : HR w A -> forall c, seg (hl w) (pv (hl w) (hd 0 c)) c 0 -> length c <= n ->
  (forall x, In x c -> In x (hseqs A i)) ->
  find_loop n w k (hash i (key_bytes k)) (hd 0 c) = Ok (hd 0 (filter (has_key A k) c)).
Proof.
  intros H c. revert n. induction c as [|x c IH]; intros n Sg Hn Hin.
  - destruct n; reflexivity.
  - cbn [length] in Hn. destruct n as [|n]; [lia|]. cbn [find_loop hd].
    assert (Hx : In x (hseqs A i)) by (apply Hin; now left).
    rewrite eqb_0 by (intros ->; eapply no0; eauto).
    rewrite (matches_Ok _ _ _ _ _ H Hx). cbn [bind filter].
    destruct (has_key A k x); [reflexivity|].
    rewrite getf_Ok by (eapply halive_in; eauto). cbn [bind].
    cbn [seg] in Sg. destruct Sg as (_ & S2 & S3). rewrite S2.
    apply IH; auto; [|lia|intros y Hy; apply Hin; now right].
    destruct c as [|y c]; [cbn; auto|]. cbn [hd]. cbn [seg] in S3 |- *. destruct S3 as (a & b & d). auto.
Qed.

Lemma find_from_Ok w A i k : HR w A -> find_from w i k (hash i (key_bytes k)) = Ok (lookup A i k).
Proof.
  intros H. unfold find_from. destruct (H_tab _ _ H i) as (Hl & ch & Hc).
  rewrite slot_Ok by auto. cbn [bind].
  set (T := table (hashes w i)) in *. set (h := hash i (key_bytes k)).
  pose proof (slotn_lt h _ Hl) as Hs. destruct (Hc _ Hs) as (Hn & Nd & Sg & Hin).
  rewrite (rd_Ok _ _ _ Hn). cbn [bind].
  set (c := ch (slotn h (length T))) in *.
  rewrite (find_chain w A i k _ H c).
  - f_equal. unfold lookup.
    destruct (filter (has_key A k) c) as [|x r] eqn:E; cbn [hd].
    + destruct (lookup_cases A i k (no0 _ _ _ H)) as [[K _]|(_ & K1 & K2)]; [unfold lookup in K; now rewrite K|].
      exfalso. set (y := lookup A i k) in *.
      assert (In y c).
      { apply Hin. split; auto. rewrite (H_hk _ _ H) by (eapply H_owned; eauto).
        apply has_key_true in K2 as (v & K2). rewrite (H_cached _ _ H _ _ _ _ K1 K2). reflexivity. }
      assert (In y (filter (has_key A k) c)) by (apply filter_In; auto). rewrite E in H1. destruct H1.
    + assert (In x (filter (has_key A k) c)) as Hx by (rewrite E; now left).
      apply filter_In in Hx as [h1 h2]. apply Hin in h1 as [h1 _].
      apply has_key_true in h2 as (v & h2). symmetry. apply (lookup_unique w A i k x v H h1 h2).
  - destruct c as [|y c']; cbn [hd seg]; auto. cbn [seg] in Sg. tauto.
  - rewrite (H_num _ _ H), Nnat.Nat2N.id. apply NoDup_incl_length; auto.
    intros x Hx. now apply Hin in Hx.
  - intros x Hx. now apply Hin in Hx.
Qed.

Lemma find_node_Ok w A i x k v : HR w A -> node A x = Some (k, v) -> carried_ok hash A i x k ->
  find_node w i x = Ok (lookup A i k).
Proof.
  intros H Hn Hc. assert (Hx : hexists A x) by (unfold hexists; congruence).
  unfold find_node. rewrite getf_Ok by now apply (H_alive _ _ H). cbn [bind].
  rewrite (node_of_Ok _ _ _ _ H Hn). cbn [bind]. rewrite (H_hk _ _ H) by auto. rewrite (H_fn _ _ H).
  rewrite <- (find_from_Ok w A i k H). f_equal.
  destruct (N.eqb_spec (carried A x) 0); auto. destruct Hc; congruence.
Qed.

(** ** Node creation and destruction *)
Lemma HR_new w A k v a : HR w A -> hfree A a ->
  exists w', hnew w k v a = Ok w' /\ HR w' (fresh_node A a k v) /\ hashes w' = hashes w.
Proof.
  intros H [F0 F1]. unfold hnew.
  assert (halive w a = false) as Hal.
  { destruct (halive w a) eqn:E; auto. apply (H_alive _ _ H) in E. destruct (E F1). }
  rewrite (eqb_0 _ F0), Hal. cbn [orb].
  eexists; split; [reflexivity|]. split; [|reflexivity].
  assert (Hna : forall i, ~ In a (hseqs A i)).
  { intros i K. apply (H_owned _ _ H) in K. auto. }
  assert (Hne : forall i x, In x (hseqs A i) -> x <> a) by (intros i x Hx ->; eapply Hna; eauto).
  split; cbn [halive ll hl hk nd hashes hseqs node carried left fresh_node].
  - intros x. unfold hexists; cbn. destruct (Nat.eq_dec x a) as [->|D].
    + rewrite !fupd_same. split; congruence.
    + rewrite !fupd_other by auto. apply (H_alive _ _ H).
  - intros x. destruct (Nat.eq_dec x a) as [->|D]; [now rewrite !fupd_same|].
    rewrite !fupd_other by auto. apply (H_node _ _ H).
  - rewrite fupd_other by auto. apply (H_null _ _ H).
  - intros x. unfold hexists; cbn. destruct (Nat.eq_dec x a) as [->|D]; [now rewrite !fupd_same|].
    rewrite !fupd_other by auto. apply (H_hk _ _ H).
  - intros i. apply dlist_frame with (ll w); [|apply (H_list _ _ H)].
    intros x Hx. cbn. rewrite !fupd_other; eauto.
  - apply (H_num _ _ H).
  - apply (H_fn _ _ H).
  - intros i. apply htab_frame with (hl w) (hk w) (hseqs A i); [| | |apply (H_tab _ _ H)]; try tauto.
    + intros x Hx. cbn. rewrite !fupd_other; eauto.
    + intros x Hx. rewrite fupd_other; eauto.
  - intros i x Hx. unfold hexists; cbn. rewrite fupd_other by eauto. eapply H_owned; eauto.
  - apply (H_disj _ _ H).
  - intros i x y k' v1 v2 Hx Hy. rewrite !fupd_other by eauto. eapply (H_uniq _ _ H); eauto.
  - intros i x k' v1 Hx. rewrite !fupd_other by eauto. eapply (H_cached _ _ H); eauto.
  - intros x Hx Ha. cbn. destruct (Nat.eq_dec x a) as [->|D]; [now rewrite !fupd_same|].
    rewrite !fupd_other by auto. apply (H_loose _ _ H).
    + unfold hexists in *; cbn in Hx. now rewrite fupd_other in Hx by auto.
    + exact Ha.
Qed.

Lemma HR_delete w A x : HR w A -> hexists A x -> ~ hattached A x ->
  exists w', hdelete w x = Ok w' /\ HR w' (HAbs (hseqs A) (fupd (node A) x None) (carried A) (left A)).
Proof.
  intros H Hx Ha. unfold hdelete. rewrite (proj2 (H_alive _ _ H x) Hx).
  eexists; split; [reflexivity|].
  assert (Hne : forall i y, In y (hseqs A i) -> y <> x) by (intros i y Hy ->; apply Ha; now exists i).
  split; cbn [halive ll hl hk nd hashes hseqs node carried left].
  - intros y. unfold hexists; cbn. destruct (Nat.eq_dec y x) as [->|D].
    + rewrite !fupd_same. split; congruence.
    + rewrite !fupd_other by auto. apply (H_alive _ _ H).
  - intros y. destruct (Nat.eq_dec y x) as [->|D]; [now rewrite !fupd_same|].
    rewrite !fupd_other by auto. apply (H_node _ _ H).
  - destruct (Nat.eq_dec 0 x) as [<-|D]; [now rewrite fupd_same|]. rewrite fupd_other by auto. apply (H_null _ _ H).
  - intros y. unfold hexists; cbn. destruct (Nat.eq_dec y x) as [->|D]; [rewrite fupd_same; congruence|].
    rewrite !fupd_other by auto. apply (H_hk _ _ H).
  - apply (H_list _ _ H).
  - apply (H_num _ _ H).
  - apply (H_fn _ _ H).
  - apply (H_tab _ _ H).
  - intros i y Hy. unfold hexists; cbn. rewrite fupd_other by eauto. eapply H_owned; eauto.
  - apply (H_disj _ _ H).
  - intros i y z k' v1 v2 Hy Hz. rewrite !fupd_other by eauto. eapply (H_uniq _ _ H); eauto.
  - intros i y k' v1 Hy. rewrite !fupd_other by eauto. eapply (H_cached _ _ H); eauto.
  - intros y Hy Hb. apply (H_loose _ _ H); auto.
    unfold hexists in *; cbn in Hy. destruct (Nat.eq_dec y x) as [->|D]; auto.
    now rewrite fupd_other in Hy by auto.
Qed.

Lemma HR_setkey w A x k k0 v : HR w A -> node A x = Some (k0, v) -> ~ hattached A x ->
  exists w', set_key w x k = Ok w' /\
    HR w' (HAbs (hseqs A) (fupd (node A) x (Some (k, v))) (fupd (carried A) x 0%N) (left A)).
Proof.
  intros H Hn Ha. unfold set_key. rewrite (node_of_Ok _ _ _ _ H Hn). cbn [bind].
  eexists; split; [reflexivity|].
  assert (Hx : hexists A x) by (unfold hexists; congruence).
  assert (Hne : forall i y, In y (hseqs A i) -> y <> x) by (intros i y Hy ->; apply Ha; now exists i).
  split; cbn [halive ll hl hk nd hashes hseqs node carried left].
  - intros y. unfold hexists; cbn. destruct (Nat.eq_dec y x) as [->|D].
    + rewrite !fupd_same. split; [congruence|]. intros _. now apply (H_alive _ _ H).
    + rewrite !fupd_other by auto. apply (H_alive _ _ H).
  - intros y. destruct (Nat.eq_dec y x) as [->|D]; [now rewrite !fupd_same|].
    rewrite !fupd_other by auto. apply (H_node _ _ H).
  - rewrite fupd_other by (apply not_eq_sym; eapply hne0; eauto). apply (H_null _ _ H).
  - intros y. unfold hexists; cbn. destruct (Nat.eq_dec y x) as [->|D]; [now rewrite !fupd_same|].
    rewrite !fupd_other by auto. apply (H_hk _ _ H).
  - apply (H_list _ _ H).
  - apply (H_num _ _ H).
  - apply (H_fn _ _ H).
  - intros i. apply htab_frame with (hl w) (hk w) (hseqs A i); [| | |apply (H_tab _ _ H)]; try tauto.
    intros y Hy. rewrite fupd_other; eauto.
  - intros i y Hy. unfold hexists; cbn. rewrite fupd_other by eauto. eapply H_owned; eauto.
  - apply (H_disj _ _ H).
  - intros i y z k' v1 v2 Hy Hz. rewrite !fupd_other by eauto. eapply (H_uniq _ _ H); eauto.
  - intros i y k' v1 Hy. rewrite !fupd_other by eauto. eapply (H_cached _ _ H); eauto.
  - intros y Hy Hb. apply (H_loose _ _ H); auto.
    unfold hexists in *; cbn in Hy. destruct (Nat.eq_dec y x) as [->|D]; auto.
    now rewrite fupd_other in Hy by auto.
Qed.

(** Caching the hash key of a detached node. *)
Lemma HR_cache w A i x k v : HR w A -> node A x = Some (k, v) -> ~ hattached A x -> carried_ok hash A i x k ->
  exists w', cache_key w i x = Ok w' /\ HR w' (cached hash A i x k) /\ hl w' = hl w /\ halive w' = halive w.
Proof.
  intros H Hn Ha Hc. unfold cache_key.
  assert (Hx : hexists A x) by (unfold hexists; congruence).
  rewrite getf_Ok by now apply (H_alive _ _ H). cbn [bind]. rewrite (H_hk _ _ H) by auto.
  assert (Hne : forall i y, In y (hseqs A i) -> y <> x) by (intros j y Hy ->; apply Ha; now exists j).
  destruct (N.eqb_spec (carried A x) 0) as [E|E].
  - rewrite (node_of_Ok _ _ _ _ H Hn). cbn [bind]. rewrite (H_fn _ _ H).
    eexists; split; [reflexivity|]. split; [|auto].
    split; cbn [halive ll hl hk nd hashes hseqs node carried left cached set_hk].
    + apply (H_alive _ _ H).
    + apply (H_node _ _ H).
    + apply (H_null _ _ H).
    + intros y Hy. destruct (Nat.eq_dec y x) as [->|D]; [now rewrite !fupd_same|].
      rewrite !fupd_other by auto. now apply (H_hk _ _ H).
    + apply (H_list _ _ H).
    + apply (H_num _ _ H).
    + apply (H_fn _ _ H).
    + intros j. apply htab_frame with (hl w) (hk w) (hseqs A j); [| | |apply (H_tab _ _ H)]; try tauto.
      intros y Hy. rewrite fupd_other; eauto.
    + apply (H_owned _ _ H).
    + apply (H_disj _ _ H).
    + apply (H_uniq _ _ H).
    + intros j y k' v1 Hy. rewrite !fupd_other by eauto. eapply (H_cached _ _ H); eauto.
    + apply (H_loose _ _ H).
  - eexists; split; [reflexivity|]. split; [|auto].
    apply HR_ext with A; auto. intros y _. cbn. destruct (Nat.eq_dec y x) as [->|D].
    + rewrite fupd_same. destruct Hc; congruence.
    + now rewrite fupd_other.
Qed.

(** ** Resizing *)
Lemma HR_resize w A i n : HR w A -> n <> 0 -> exists w', resize w i n = Ok (w', 1) /\ HR w' A.
Proof.
  intros H Hn. unfold resize. rewrite (eqb_0 _ Hn).
  pose proof (H_list _ _ H i) as (Nd & Z & Hh & Ht & Sg).
  rewrite (H_num _ _ H), Nnat.Nat2N.id, Hh.
  destruct (rechain_ok (halive w) (ll w) (hk w) (hseqs A i) [] (hl w) (repeat 0 n)) as (H1 & T1 & E1 & L1 & Ht1 & Off); auto.
  { apply htab_nil. lia. }
  { intros y Hy. eapply halive_in; eauto. }
  rewrite E1. cbn [bind]. eexists; split; [reflexivity|]. cbn [app] in *.
  split; cbn [halive ll hl hk nd hashes set_hobj set_hl].
  - apply (H_alive _ _ H).
  - apply (H_node _ _ H).
  - apply (H_null _ _ H).
  - apply (H_hk _ _ H).
  - intros j. destruct (Nat.eq_dec j i) as [->|D].
    + rewrite fupd_same. cbn. apply (H_list _ _ H).
    + rewrite fupd_other by auto. apply (H_list _ _ H).
  - intros j. destruct (Nat.eq_dec j i) as [->|D].
    + rewrite fupd_same. reflexivity.
    + rewrite fupd_other by auto. apply (H_num _ _ H).
  - intros j b. destruct (Nat.eq_dec j i) as [->|D].
    + rewrite fupd_same. cbn. apply (H_fn _ _ H).
    + rewrite fupd_other by auto. apply (H_fn _ _ H).
  - intros j. destruct (Nat.eq_dec j i) as [->|D].
    + rewrite fupd_same. cbn [table]. exact Ht1.
    + rewrite fupd_other by auto.
      apply htab_frame with (hl w) (hk w) (hseqs A j); [| | |apply (H_tab _ _ H)]; try tauto.
      intros y Hy. apply Off. intros K. apply D. now apply (H_disj _ _ H j i y).
  - apply (H_owned _ _ H).
  - apply (H_disj _ _ H).
  - apply (H_uniq _ _ H).
  - apply (H_cached _ _ H).
  - intros x Hx Ha. destruct (Off x) as [-> ->]; [intros K; apply Ha; now exists i|].
    now apply (H_loose _ _ H).
Qed.

(** ** Insertion *)
Lemma primes_pos n p : nth_error primes n = Some p -> N.to_nat p <> 0.
Proof.
  intros H E. assert (Hp : p = 0%N) by lia. subst p. apply nth_error_In in H.
  unfold primes in H. cbn in H. repeat (destruct H as [H|H]; [discriminate|]). exact H.
Qed.

Definition put (after : bool) := if after then put_after else put_before.

Lemma in_put (after : bool) i (A : habs V) pos x y : hposition A i pos ->
  In y (put after pos x (hseqs A i)) <-> y = x \/ In y (hseqs A i).
Proof.
  intros Hp. destruct after; cbn.
  - apply (in_put_after (V:=V)). exact Hp.
  - apply in_put_before.
Qed.
Lemma length_put (after : bool) i (A : habs V) pos x : hposition A i pos ->
  length (put after pos x (hseqs A i)) = S (length (hseqs A i)).
Proof.
  intros Hp. destruct after; cbn.
  - now apply length_put_after.
  - apply length_put_before.
Qed.

Lemma link_ok (after : bool) w A i pos x : HR w A -> hexists A x -> ~ hattached A x ->
  (left A x = true -> pos <> 0) -> hposition A i pos ->
  exists L' E', (if after then link_after else link_before) (halive w) (ll w) (hends (hashes w i)) pos x = Ok (L', E') /\
    dlist L' E' (put after pos x (hseqs A i)) /\ same_off (x :: hseqs A i) (ll w) L'.
Proof.
  intros H Hx Ha Hs Hp.
  pose proof (H_list _ _ H i) as D.
  destruct (H_loose _ _ H x Hx Ha) as (_ & _ & Ll).
  assert (X0 : x <> 0) by (eapply hne0; eauto).
  assert (Xn : ~ In x (hseqs A i)) by (intros K; apply Ha; now exists i).
  assert (Ax : halive w x = true) by now apply (H_alive _ _ H).
  assert (Al : forall y, In y (hseqs A i) -> halive w y = true) by (intros y; eapply halive_in; eauto).
  destruct Hp as [->|Hp].
  - assert (left A x = false) as E by (destruct (left A x); auto; destruct (Hs eq_refl eq_refl)).
    destruct (Ll E) as [l1 l2]. destruct after; cbn [put].
    + now apply link_after_front.
    + rewrite put_before_end by apply D. now apply link_before_end.
  - assert (P0 : pos <> 0) by (intros ->; apply D; auto).
    apply in_split in Hp as (l & r & E). rewrite E in *. destruct D as (Nd & D).
    destruct after; cbn [put].
    + rewrite put_after_mid by (auto; apply (NoDup_mid _ _ _ Nd)). apply link_after_mid; auto. now split.
    + rewrite put_before_mid by apply (NoDup_mid _ _ _ Nd). apply link_before_mid; auto. now split.
Qed.

(** Common part of the two ways an insertion ends: the node is in the list,
    and the chains of container [i] are correct for the new list. *)
Lemma HR_inserted (after : bool) w A i pos x k v L' E' H' T' np :
  HR w A -> node A x = Some (k, v) -> ~ hattached A x -> hposition A i pos ->
  carried A x = hash i (key_bytes k) -> lookup A i k = 0 ->
  dlist L' E' (put after pos x (hseqs A i)) -> same_off (x :: hseqs A i) (ll w) L' ->
  htab H' T' (hk w) (put after pos x (hseqs A i)) -> same_off (x :: hseqs A i) (hl w) H' ->
  HR (HWorld (halive w) L' H' (hk w) (nd w)
        (fupd (hashes w) i (Hobj (hfn (hashes w i)) T' np E' (hnum (hashes w i) + 1))))
     (HAbs (fupd (hseqs A) i (put after pos x (hseqs A i))) (node A) (carried A) (fupd (left A) x false)).
Proof.
  intros H Hn Ha Hp Hc Hl D1 Off1 D2 Off2.
  assert (Hx : hexists A x) by (unfold hexists; congruence).
  assert (Hd2 : forall j y, j <> i -> In y (hseqs A j) -> ~ In y (x :: hseqs A i)).
  { intros j y D Hj [<-|Hi]; [apply Ha; now exists j|]. apply D. now apply (H_disj _ _ H j i y). }
  assert (Nk : forall y v', In y (hseqs A i) -> node A y <> Some (k, v')).
  { intros y v' Hy Ey. destruct (lookup_cases A i k (no0 _ _ _ H)) as [[_ K]|[K _]]; [|congruence].
    specialize (K y Hy). rewrite (proj2 (has_key_true A k y)) in K by eauto. discriminate. }
  assert (Hin : forall j y, In y (fupd (hseqs A) i (put after pos x (hseqs A i)) j) ->
     (j = i /\ y = x) \/ In y (hseqs A j)).
  { intros j y. destruct (Nat.eq_dec j i) as [->|D].
    - rewrite fupd_same, in_put by auto. intros [?|?]; auto.
    - rewrite fupd_other by auto. auto. }
  split; cbn [halive ll hl hk nd hashes hseqs node carried left].
  - apply (H_alive _ _ H).
  - apply (H_node _ _ H).
  - apply (H_null _ _ H).
  - apply (H_hk _ _ H).
  - intros j. destruct (Nat.eq_dec j i) as [->|D].
    + rewrite !fupd_same. exact D1.
    + rewrite !fupd_other by auto. apply dlist_frame with (ll w); [|apply (H_list _ _ H)].
      intros y Hy. apply Off1. eauto.
  - intros j. destruct (Nat.eq_dec j i) as [->|D].
    + rewrite !fupd_same. cbn. rewrite (H_num _ _ H), length_put by auto. lia.
    + rewrite !fupd_other by auto. apply (H_num _ _ H).
  - intros j b. destruct (Nat.eq_dec j i) as [->|D].
    + rewrite !fupd_same. cbn. apply (H_fn _ _ H).
    + rewrite !fupd_other by auto. apply (H_fn _ _ H).
  - intros j. destruct (Nat.eq_dec j i) as [->|D].
    + rewrite !fupd_same. exact D2.
    + rewrite !fupd_other by auto.
      apply htab_frame with (hl w) (hk w) (hseqs A j); [| | |apply (H_tab _ _ H)]; try tauto.
      intros y Hy. apply Off2. eauto.
  - intros j y Hy. apply Hin in Hy as [[_ ->]|Hy]; auto. exact (H_owned _ _ H _ _ Hy).
  - intros j1 j2 y Hy1 Hy2. apply Hin in Hy1 as [[-> ->]|Hy1]; apply Hin in Hy2 as [[-> E]|Hy2]; auto.
    + exfalso. apply Ha. now exists j2.
    + subst. exfalso. apply Ha. now exists j1.
    + eapply (H_disj _ _ H); eauto.
  - intros j y z k' v1 v2 Hy Hz Ey Ez.
    apply Hin in Hy as [[-> ->]|Hy]; apply Hin in Hz as [[Ej ->]|Hz]; auto.
    + exfalso. replace k' with k in Ez by congruence. eapply Nk; eauto.
    + subst. exfalso. replace k' with k in Ey by congruence. eapply Nk; eauto.
    + eapply (H_uniq _ _ H); eauto.
  - intros j y k' v1 Hy Ey. apply Hin in Hy as [[-> ->]|Hy].
    + rewrite Hc. congruence.
    + eapply (H_cached _ _ H); eauto.
  - intros y Hy Hb.
    assert (Hb' : ~ In y (x :: hseqs A i) /\ ~ hattached A y).
    { split.
      - intros K. apply Hb. exists i. cbn. rewrite fupd_same, in_put by auto. destruct K; auto.
      - intros [j K]. apply Hb. exists j. cbn. destruct (Nat.eq_dec j i) as [->|D].
        + rewrite fupd_same, in_put by auto. auto.
        + now rewrite fupd_other. }
    destruct Hb' as [h1 h2].
    destruct (Off1 y h1) as [-> ->]. destruct (Off2 y h1) as [-> ->].
    rewrite fupd_other by (intros ->; apply h1; now left). now apply (H_loose _ _ H).
Qed.

Lemma sim_finish (after : bool) w A i pos x k v :
  HR w A -> node A x = Some (k, v) -> ~ hattached A x -> hposition A i pos ->
  (left A x = true -> pos <> 0) -> carried A x = hash i (key_bytes k) -> lookup A i k = 0 ->
  exists L E w', (if after then link_after else link_before) (halive w) (ll w) (hends (hashes w i)) pos x = Ok (L, E) /\
    finish_insert w i L E x = Ok (w', x) /\
    HR w' (HAbs (fupd (hseqs A) i (put after pos x (hseqs A i))) (node A) (carried A) (fupd (left A) x false)).
Proof.
  intros H Hn Ha Hp Hs Hc Hl.
  assert (Hx : hexists A x) by (unfold hexists; congruence).
  destruct (link_ok after w A i pos x H Hx Ha Hs Hp) as (L & E & E1 & D1 & Off1).
  exists L, E. unfold finish_insert.
  set (xs := put after pos x (hseqs A i)) in *.
  assert (Al : forall y, In y xs -> halive w y = true).
  { intros y. unfold xs. rewrite in_put by auto. intros [->|K]; [now apply (H_alive _ _ H)|eapply halive_in; eauto]. }
  assert (Ax : halive w x = true) by now apply (H_alive _ _ H).
  destruct (H_loose _ _ H x Hx Ha) as (h1 & h2 & _).
  assert (CF : exists H1 T1, chain_front (halive w) (hl w) (table (hashes w i)) (hk w x) x = Ok (H1, T1) /\
     htab H1 T1 (hk w) xs /\ same_off (x :: hseqs A i) (hl w) H1).
  { destruct (chain_front_ok (halive w) (hl w) (table (hashes w i)) (hk w) (hseqs A i) x xs) as (H1 & T1 & E2 & _ & Ht & Off); eauto.
    - apply (H_tab _ _ H).
    - intros K; apply Ha; now exists i.
    - eapply hne0; eauto.
    - eapply no0; eauto.
    - intros y Hy. eapply halive_in; eauto.
    - intros y. apply in_put; auto. }
  assert (RZ : forall n, n <> 0 -> exists w', resize (set_hobj (set_ll w L) i
       (Hobj (hfn (hashes w i)) (table (hashes w i)) (npp (hashes w i)) E (hnum (hashes w i) + 1))) i n = Ok (w', 1) /\
       HR w' (HAbs (fupd (hseqs A) i xs) (node A) (carried A) (fupd (left A) x false))).
  { intros n Hn0. unfold resize. rewrite (eqb_0 _ Hn0).
    unfold set_hobj, set_ll; cbn [hashes halive ll hl hk nd]. rewrite fupd_same. cbn [hfn table npp hends hnum].
    pose proof D1 as (Nd & Z & Hh & Ht & Sg).
    rewrite (H_num _ _ H). replace (N.to_nat (N.of_nat (length (hseqs A i)) + 1)) with (length xs)
      by (unfold xs; rewrite length_put by auto; lia).
    rewrite Hh.
    destruct (rechain_ok (halive w) L (hk w) xs [] (hl w) (repeat 0 n)) as (H1 & T1 & E2 & L2 & Ht1 & Off); auto.
    { apply htab_nil. lia. }
    rewrite E2. cbn [bind]. eexists; split; [reflexivity|]. cbn [app] in *.
    unfold set_hl; cbn [halive ll hl hk nd hashes].
    assert (Ext : forall j, fupd (fupd (hashes w) i
            (Hobj (hfn (hashes w i)) (table (hashes w i)) (npp (hashes w i)) E (N.of_nat (length (hseqs A i)) + 1))) i
         (Hobj (hfn (hashes w i)) T1 (next_prime primes (N.of_nat n) 0) E (N.of_nat (length (hseqs A i)) + 1)) j
       = fupd (hashes w) i (Hobj (hfn (hashes w i)) T1 (next_prime primes (N.of_nat n) 0) E (hnum (hashes w i) + 1)) j).
    { intros j. rewrite (H_num _ _ H). destruct (Nat.eq_dec j i) as [->|D]; [now rewrite !fupd_same|]. now rewrite !fupd_other by auto. }
    assert (G : HR (HWorld (halive w) L H1 (hk w) (nd w)
        (fupd (hashes w) i (Hobj (hfn (hashes w i)) T1 (next_prime primes (N.of_nat n) 0) E (hnum (hashes w i) + 1))))
       (HAbs (fupd (hseqs A) i xs) (node A) (carried A) (fupd (left A) x false))).
    { eapply HR_inserted; eauto. intros y Hy. apply Off. unfold xs. rewrite in_put by auto.
      intros K. apply Hy. destruct K; [now left|now right]. }
    destruct G as [g1 g2 g3 g4 g5 g6 g7 g8 g9 g10 g11 g12 g13].
    split; cbn [halive ll hl hk nd hashes] in *; auto; intros j; rewrite Ext; auto. }
  destruct CF as (H1 & T1 & E2 & Ht & Off).
  assert (G : HR (set_hobj (set_hl (set_hobj (set_ll w L) i
       (Hobj (hfn (hashes w i)) (table (hashes w i)) (npp (hashes w i)) E (hnum (hashes w i) + 1))) H1) i
       (Hobj (hfn (hashes w i)) T1 (npp (hashes w i)) E (hnum (hashes w i) + 1)))
       (HAbs (fupd (hseqs A) i xs) (node A) (carried A) (fupd (left A) x false))).
  { assert (G : HR (HWorld (halive w) L H1 (hk w) (nd w)
        (fupd (hashes w) i (Hobj (hfn (hashes w i)) T1 (npp (hashes w i)) E (hnum (hashes w i) + 1))))
       (HAbs (fupd (hseqs A) i xs) (node A) (carried A) (fupd (left A) x false))) by (eapply HR_inserted; eauto).
    assert (Ext : forall j, fupd (fupd (hashes w) i
            (Hobj (hfn (hashes w i)) (table (hashes w i)) (npp (hashes w i)) E (hnum (hashes w i) + 1))) i
         (Hobj (hfn (hashes w i)) T1 (npp (hashes w i)) E (hnum (hashes w i) + 1)) j
       = fupd (hashes w) i (Hobj (hfn (hashes w i)) T1 (npp (hashes w i)) E (hnum (hashes w i) + 1)) j).
    { intros j. destruct (Nat.eq_dec j i) as [->|D]; [now rewrite !fupd_same|]. now rewrite !fupd_other by auto. }
    destruct G as [g1 g2 g3 g4 g5 g6 g7 g8 g9 g10 g11 g12 g13].
    split; cbn [halive ll hl hk nd hashes set_hobj set_hl set_ll] in *; auto; intros j; rewrite Ext; auto. }
  rewrite (getf_Ok (halive w) (hk w)) by auto. cbn [bind]. rewrite E2. cbn [bind].
  destruct (nth_error primes (npp (hashes w i))) as [p|] eqn:Ep; [destruct (p <=? hnum (hashes w i) + 1)%N|].
  - destruct (RZ (N.to_nat p) (primes_pos _ _ Ep)) as (w' & E3 & G3). rewrite E3. cbn [bind]. eauto.
  - eauto.
  - eauto.
Qed.

Lemma sim_insert_node (after : bool) w A i pos x k v :
  HR w A -> node A x = Some (k, v) -> ~ hattached A x -> carried_ok hash A i x k ->
  (left A x = true -> pos <> 0) -> hposition A i pos -> lookup A i k = 0 ->
  exists w', insert_node after w i pos x = Ok (w', x) /\
    HR w' (attach hash A i (put after pos x (hseqs A i)) x k).
Proof.
  intros H Hn Ha Hc Hs Hp Hl. unfold insert_node.
  assert (Hx : hexists A x) by (unfold hexists; congruence).
  destruct (H_loose _ _ H x Hx Ha) as (h1 & h2 & _).
  rewrite !getf_Ok by now apply (H_alive _ _ H). cbn [bind]. rewrite h1, h2. cbn [Nat.eqb negb].
  destruct (HR_cache w A i x k v H Hn Ha Hc) as (w1 & E1 & H1 & _). rewrite E1. cbn [bind].
  set (A1 := cached hash A i x k) in *.
  assert (Hc1 : carried A1 x = hash i (key_bytes k)) by (cbn; apply fupd_same).
  rewrite (find_node_Ok w1 A1 i x k v H1 Hn) by (right; exact Hc1). cbn [bind].
  change (lookup A1 i k) with (lookup A i k). rewrite Hl. cbn [Nat.eqb negb].
  destruct (sim_finish after w1 A1 i pos x k v H1 Hn Ha Hp Hs Hc1 Hl) as (L & E & w' & E2 & E3 & G).
  rewrite E2. cbn [bind]. exists w'. split; auto.
Qed.

Lemma sim_insert_dup (after : bool) w A i pos x k v :
  HR w A -> node A x = Some (k, v) -> ~ hattached A x -> carried_ok hash A i x k -> lookup A i k <> 0 ->
  exists w', insert_node after w i pos x = Ok (w', 0) /\ HR w' (cached hash A i x k).
Proof.
  intros H Hn Ha Hc Hl. unfold insert_node.
  assert (Hx : hexists A x) by (unfold hexists; congruence).
  destruct (H_loose _ _ H x Hx Ha) as (h1 & h2 & _).
  rewrite !getf_Ok by now apply (H_alive _ _ H). cbn [bind]. rewrite h1, h2. cbn [Nat.eqb negb].
  destruct (HR_cache w A i x k v H Hn Ha Hc) as (w1 & E1 & H1 & _). rewrite E1. cbn [bind].
  set (A1 := cached hash A i x k) in *.
  assert (Hc1 : carried A1 x = hash i (key_bytes k)) by (cbn; apply fupd_same).
  rewrite (find_node_Ok w1 A1 i x k v H1 Hn) by (right; exact Hc1). cbn [bind].
  change (lookup A1 i k) with (lookup A i k). rewrite (eqb_0 _ Hl). cbn [negb]. eauto.
Qed.

Lemma sim_insert_again (after : bool) w A i pos x : HR w A -> In x (hseqs A i) ->
  exists w', insert_node after w i pos x = Ok (w', 0) /\ HR w' A.
Proof.
  intros H Hi. unfold insert_node.
  pose proof (H_owned _ _ H _ _ Hi) as Hx. unfold hexists in Hx.
  destruct (node A x) as [[k v]|] eqn:Hn; [|congruence].
  assert (Ax : halive w x = true) by (eapply halive_in; eauto).
  rewrite !getf_Ok by auto. cbn [bind].
  destruct (negb (Nat.eqb (pv (hl w) x) 0)); [eauto|].
  destruct (negb (Nat.eqb (nx (hl w) x) 0)); [eauto|].
  pose proof (H_cached _ _ H _ _ _ _ Hi Hn) as Hc.
  assert (exists w1, cache_key w i x = Ok w1 /\ HR w1 A) as (w1 & E1 & H1).
  { unfold cache_key. rewrite getf_Ok by auto. cbn [bind].
    destruct (N.eqb_spec (hk w x) 0) as [E|E]; [|eauto].
    rewrite (node_of_Ok _ _ _ _ H Hn). cbn [bind]. eexists; split; [reflexivity|].
    assert (Ek : forall y, fupd (hk w) x (hfn (hashes w i) (key_bytes k)) y = hk w y).
    { intros y. destruct (Nat.eq_dec y x) as [->|D]; [|now rewrite fupd_other].
      rewrite fupd_same, (H_fn _ _ H), <- Hc. symmetry. apply (H_hk _ _ H). unfold hexists. congruence. }
    destruct H as [g1 g2 g3 g4 g5 g6 g7 g8 g9 g10 g11 g12 g13].
    split; cbn [halive ll hl hk nd hashes set_hk]; auto.
    - intros y Hy. rewrite Ek. auto.
    - intros j. apply htab_frame with (hl w) (hk w) (hseqs A j); auto; tauto. }
  rewrite E1. cbn [bind].
  rewrite (find_node_Ok w1 A i x k v H1 Hn) by (right; exact Hc). cbn [bind].
  rewrite (lookup_unique w1 A i k x v H1 Hi Hn).
  rewrite eqb_0 by (intros ->; eapply no0; eauto). cbn [negb]. eauto.
Qed.

(** ** Detaching *)
Lemma sim_hdetach w A i x reset : HR w A -> In x (hseqs A i) ->
  exists w', hdetach w i x reset = Ok (w', 1) /\ HR w' (detached A i x reset).
Proof.
  intros H Hi. pose proof (H_list _ _ H i) as D.
  assert (Hx : hexists A x) by (eapply H_owned; eauto).
  unfold hdetach. rewrite (eqb_0 x) by (eapply hne0; eauto).
  assert (Al : forall y, In y (hseqs A i) -> halive w y = true) by (intros y; eapply halive_in; eauto).
  assert (Nd : NoDup (hseqs A i)) by apply D.
  pose proof Hi as Hi0. apply in_split in Hi as (l & r & E).
  pose proof Nd as Nd0. rewrite E in Nd0. destruct (NoDup_mid _ _ _ Nd0) as (Pl & Pr & _).
  assert (D' : dlist (ll w) (hends (hashes w i)) (l ++ x :: r)) by now rewrite <- E.
  assert (Al' : forall y, In y (l ++ x :: r) -> halive w y = true) by now rewrite <- E.
  destruct (unlink_mid _ _ _ _ _ _ D' Al') as (L' & E' & El & D1 & N0 & P0 & Off1).
  rewrite El. cbn [bind].
  assert (Ew : without x (hseqs A i) = l ++ r) by (rewrite E; now apply without_mid).
  rewrite <- E in Off1. rewrite <- Ew in D1.
  rewrite getf_Ok by auto. cbn [bind].
  destruct (unchain_ok (halive w) (hl w) (table (hashes w i)) (hk w) (hseqs A i) x (without x (hseqs A i)))
    as (H1 & T1 & E1 & L1 & Ht & N1 & P1 & Off2); auto.
  { apply (H_tab _ _ H). }
  { eapply no0; eauto. }
  { intros y. apply in_without. }
  rewrite E1. cbn [bind]. eexists; split; [reflexivity|].
  assert (Kf : forall y, y <> x -> (if reset then fupd (hk w) x 0%N else hk w) y = hk w y).
  { intros y Dy. destruct reset; auto. now apply fupd_other. }
  assert (Cf : forall y, y <> x -> uncache reset x (carried A) y = carried A y).
  { intros y Dy. unfold uncache. destruct reset; auto. now apply fupd_other. }
  assert (Hin : forall j y, In y (fupd (hseqs A) i (without x (hseqs A i)) j) -> y <> x /\ In y (hseqs A j)).
  { intros j y. destruct (Nat.eq_dec j i) as [->|Dj].
    - rewrite fupd_same. apply in_without.
    - rewrite fupd_other by auto. intros K. split; auto. intros ->. apply Dj. now apply (H_disj _ _ H j i x). }
  assert (Hj : forall j y, j <> i -> In y (hseqs A j) -> ~ In y (hseqs A i)).
  { intros j y Dj K1 K2. apply Dj. now apply (H_disj _ _ H j i y). }
  split; cbn [halive ll hl hk nd hashes hseqs node carried left detached].
  - apply (H_alive _ _ H).
  - apply (H_node _ _ H).
  - apply (H_null _ _ H).
  - intros y Hy. destruct (Nat.eq_dec y x) as [->|Dy].
    + unfold uncache. destruct reset; [now rewrite !fupd_same|now apply (H_hk _ _ H)].
    + rewrite Kf, Cf by auto. now apply (H_hk _ _ H).
  - intros j. destruct (Nat.eq_dec j i) as [->|Dj].
    + rewrite !fupd_same. exact D1.
    + rewrite !fupd_other by auto. apply dlist_frame with (ll w); [|apply (H_list _ _ H)].
      intros y Hy. apply Off1. eauto.
  - intros j. destruct (Nat.eq_dec j i) as [->|Dj].
    + rewrite !fupd_same. cbn. rewrite (H_num _ _ H). rewrite (length_without x (hseqs A i)) by auto. lia.
    + rewrite !fupd_other by auto. apply (H_num _ _ H).
  - intros j b. destruct (Nat.eq_dec j i) as [->|Dj].
    + rewrite !fupd_same. cbn. apply (H_fn _ _ H).
    + rewrite !fupd_other by auto. apply (H_fn _ _ H).
  - intros j. destruct (Nat.eq_dec j i) as [->|Dj].
    + rewrite !fupd_same. cbn [table].
      apply htab_frame with H1 (hk w) (without x (hseqs A i)); auto; [|tauto].
      intros y Hy. apply in_without in Hy as [h1 _]. auto.
    + rewrite !fupd_other by auto.
      apply htab_frame with (hl w) (hk w) (hseqs A j); [| | |apply (H_tab _ _ H)]; try tauto.
      * intros y Hy. apply Off2. eauto.
      * intros y Hy. apply Kf. intros ->. eapply Hj; eauto.
  - intros j y Hy. apply Hin in Hy as [_ Hy]. exact (H_owned _ _ H _ _ Hy).
  - intros j1 j2 y Hy1 Hy2. apply Hin in Hy1 as [_ Hy1]. apply Hin in Hy2 as [_ Hy2]. eapply (H_disj _ _ H); eauto.
  - intros j y z k' v1 v2 Hy Hz. apply Hin in Hy as [_ Hy]. apply Hin in Hz as [_ Hz]. eapply (H_uniq _ _ H); eauto.
  - intros j y k' v1 Hy Ey. apply Hin in Hy as [h1 Hy]. rewrite Cf by auto. eapply (H_cached _ _ H); eauto.
  - intros y Hy Hb. destruct (Nat.eq_dec y x) as [->|Dy]; [auto|].
    assert (h1 : ~ In y (hseqs A i)).
    { intros K. apply Hb. exists i. cbn. rewrite fupd_same. now apply in_without. }
    destruct (Off1 y h1) as [-> ->]. destruct (Off2 y h1) as [-> ->].
    apply (H_loose _ _ H); auto. intros [j K]. apply Hb. exists j. cbn.
    destruct (Nat.eq_dec j i) as [->|Dj]; [tauto|]. now rewrite fupd_other.
Qed.

Lemma detached_not w A i x (reset : bool) : HR w A -> In x (hseqs A i) -> ~ hattached (detached A i x reset) x.
Proof.
  intros H Hi [j K]. cbn in K. destruct (Nat.eq_dec j i) as [->|D].
  - rewrite fupd_same, in_without in K. tauto.
  - rewrite fupd_other in K by auto. apply D. now apply (H_disj _ _ H j i x).
Qed.

(** ** Emptying *)
Lemma drop_node_in xs (f : nat -> option (key * V)) x : In x xs -> drop_node xs f x = None.
Proof.
  intros H. unfold drop_node. destruct (existsb (Nat.eqb x) xs) eqn:E; auto.
  rewrite <- not_true_iff_false, existsb_exists in E. destruct E. exists x. now rewrite Nat.eqb_refl.
Qed.
Lemma drop_node_notin xs (f : nat -> option (key * V)) x : ~ In x xs -> drop_node xs f x = f x.
Proof.
  intros H. unfold drop_node. destruct (existsb (Nat.eqb x) xs) eqn:E; auto.
  rewrite existsb_exists in E. destruct E as (y & Hy & E). apply Nat.eqb_eq in E. subst. tauto.
Qed.
Lemma mark_in {B} xs (b : B) f x : In x xs -> mark xs b f x = b.
Proof.
  intros H. unfold mark. destruct (existsb (Nat.eqb x) xs) eqn:E; auto.
  rewrite <- not_true_iff_false, existsb_exists in E. destruct E. exists x. now rewrite Nat.eqb_refl.
Qed.
Lemma mark_notin {B} xs (b : B) f x : ~ In x xs -> mark xs b f x = f x.
Proof.
  intros H. unfold mark. destruct (existsb (Nat.eqb x) xs) eqn:E; auto.
  rewrite existsb_exists in E. destruct E as (y & Hy & E). apply Nat.eqb_eq in E. subst. tauto.
Qed.

Lemma empty_loop_delete (reset : bool) L : forall todo p0 w, ll w = L -> seg L p0 todo 0 -> NoDup todo -> ~ In 0 todo ->
  (forall y, In y todo -> halive w y = true) ->
  exists w', hempty_loop (length todo) w true reset (hd 0 todo) = Ok w' /\
    ll w' = L /\ hl w' = hl w /\ hk w' = hk w /\ hashes w' = hashes w /\
    (forall y, nd w' y = drop_node todo (nd w) y) /\
    (forall y, halive w' y = if existsb (Nat.eqb y) todo then false else halive w y).
Proof.
  induction todo as [|x todo IH]; intros p0 w El Sg Nd Z Al.
  - exists w. repeat split; auto.
  - cbn [length hempty_loop hd]. rewrite eqb_0 by (intros ->; apply Z; now left).
    rewrite getf_Ok by (apply Al; now left). cbn [bind]. unfold hdelete.
    rewrite (Al x) by now left. cbn [bind].
    apply NoDup_cons_iff in Nd as [Nx Nd]. cbn [seg] in Sg. destruct Sg as (S1 & S2 & S3).
    rewrite El, S2.
    destruct (IH x (HWorld (fupd (halive w) x false) (ll w) (hl w) (hk w) (fupd (nd w) x None) (hashes w)))
      as (w' & E & e1 & e2 & e3 & e4 & e5 & e6); auto.
    { intros K; apply Z; now right. }
    { intros y Hy. cbn. rewrite fupd_other by (intros ->; auto). apply Al. now right. }
    rewrite <- El. exists w'. split; [exact E|]. cbn [halive ll hl hk nd hashes] in *.
    split; [congruence|]. split; auto. split; auto. split; auto. split.
    + intros y. rewrite e5. unfold drop_node. cbn [existsb].
      destruct (Nat.eqb_spec y x) as [->|D]; cbn [orb].
      * destruct (existsb _ todo); auto. apply fupd_same.
      * destruct (existsb _ todo); auto. now apply fupd_other.
    + intros y. rewrite e6. cbn [existsb]. destruct (Nat.eqb_spec y x) as [->|D]; cbn [orb].
      * destruct (existsb _ todo); auto. apply fupd_same.
      * destruct (existsb _ todo); auto. now apply fupd_other.
Qed.

Lemma empty_loop_keep (reset : bool) L : forall todo p0 w, ll w = L -> seg L p0 todo 0 -> NoDup todo -> ~ In 0 todo ->
  (forall y, In y todo -> halive w y = true) ->
  exists w', hempty_loop (length todo) w false reset (hd 0 todo) = Ok w' /\
    ll w' = L /\ halive w' = halive w /\ nd w' = nd w /\ hashes w' = hashes w /\
    (forall y, nx (hl w') y = mark todo 0 (nx (hl w)) y /\ pv (hl w') y = mark todo 0 (pv (hl w)) y) /\
    (forall y, hk w' y = if reset then mark todo 0%N (hk w) y else hk w y).
Proof.
  induction todo as [|x todo IH]; intros p0 w El Sg Nd Z Al.
  - exists w. repeat split; auto. intros y. destruct reset; auto.
  - cbn [length hempty_loop hd]. rewrite eqb_0 by (intros ->; apply Z; now left).
    rewrite !getf_Ok by (apply Al; now left). cbn [bind].
    rewrite !setf_Ok by (apply Al; now left). cbn [bind].
    apply NoDup_cons_iff in Nd as [Nx Nd]. cbn [seg] in Sg. destruct Sg as (S1 & S2 & S3).
    rewrite El, S2.
    destruct (IH x (HWorld (halive w) (ll w) (Links (fupd (nx (hl w)) x 0) (fupd (pv (hl w)) x 0))
                (if reset then fupd (hk w) x 0%N else hk w) (nd w) (hashes w)))
      as (w' & E & e1 & e2 & e3 & e4 & e5 & e6); auto.
    { intros K; apply Z; now right. }
    { intros y Hy. apply Al. now right. }
    rewrite <- El. exists w'. split; [exact E|]. cbn [halive ll hl hk nd hashes nx pv] in *.
    split; [congruence|]. split; auto. split; auto. split; auto. split.
    + intros y. destruct (e5 y) as [-> ->]. unfold mark. cbn [existsb].
      destruct (Nat.eqb_spec y x) as [->|D]; cbn [orb].
      * destruct (existsb _ todo); auto. now rewrite !fupd_same.
      * destruct (existsb _ todo); auto. now rewrite !fupd_other.
    + intros y. rewrite e6. destruct reset; auto. unfold mark. cbn [existsb].
      destruct (Nat.eqb_spec y x) as [->|D]; cbn [orb].
      * destruct (existsb _ todo); auto. apply fupd_same.
      * destruct (existsb _ todo); auto. now apply fupd_other.
Qed.

Lemma sim_hempty_delete w A i reset : HR w A ->
  exists w', hempty w i true reset = Ok w' /\
    HR w' (HAbs (fupd (hseqs A) i []) (drop_node (hseqs A i) (node A)) (carried A) (left A)).
Proof.
  intros H. pose proof (H_list _ _ H i) as (Nd & Z & Hh & Ht & Sg).
  unfold hempty. rewrite (H_num _ _ H), Nnat.Nat2N.id, Hh.
  destruct (empty_loop_delete reset (ll w) (hseqs A i) 0 w) as (w1 & E & e1 & e2 & e3 & e4 & e5 & e6); auto.
  { intros y Hy. eapply halive_in; eauto. }
  rewrite E. cbn [bind]. eexists; split; [reflexivity|].
  assert (Hin : forall j y, In y (fupd (hseqs A) i [] j) -> j <> i /\ In y (hseqs A j) /\ ~ In y (hseqs A i)).
  { intros j y. destruct (Nat.eq_dec j i) as [->|Dj]; [rewrite fupd_same; intros []|].
    rewrite fupd_other by auto. intros K. split; auto. split; auto. intros K2. apply Dj. now apply (H_disj _ _ H j i y). }
  assert (Hex : forall y, hexists (HAbs (fupd (hseqs A) i []) (drop_node (hseqs A i) (node A)) (carried A) (left A)) y
      <-> hexists A y /\ ~ In y (hseqs A i)).
  { intros y. unfold hexists; cbn. destruct (in_dec Nat.eq_dec y (hseqs A i)) as [K|K].
    - rewrite drop_node_in by auto. tauto.
    - rewrite drop_node_notin by auto. tauto. }
  split.
  - intros y. rewrite Hex. cbn [halive set_hobj]. rewrite e6.
    destruct (existsb (Nat.eqb y) (hseqs A i)) eqn:Eb.
    + rewrite existsb_exists in Eb. destruct Eb as (z & Hz & Ez). apply Nat.eqb_eq in Ez. subst z.
      split; [discriminate|]. intros [_ K]. destruct (K Hz).
    + rewrite (H_alive _ _ H). split; [|tauto]. intros K. split; auto. intros K2.
      rewrite <- not_true_iff_false, existsb_exists in Eb. apply Eb. exists y. now rewrite Nat.eqb_refl.
  - intros y. cbn [nd set_hobj node]. rewrite e5. unfold drop_node.
    destruct (existsb _ _); auto. apply (H_node _ _ H).
  - cbn [node]. rewrite drop_node_notin by auto. apply (H_null _ _ H).
  - intros y Hy. apply Hex in Hy as [Hy _]. cbn [hk set_hobj carried]. rewrite e3. now apply (H_hk _ _ H).
  - intros j. cbn [ll hashes set_hobj hseqs]. rewrite e1, e4. destruct (Nat.eq_dec j i) as [->|Dj].
    + rewrite !fupd_same. repeat split; auto; constructor.
    + rewrite !fupd_other by auto. apply (H_list _ _ H).
  - intros j. cbn [hashes set_hobj hseqs]. rewrite e4. destruct (Nat.eq_dec j i) as [->|Dj].
    + now rewrite !fupd_same.
    + rewrite !fupd_other by auto. apply (H_num _ _ H).
  - intros j b. cbn [hashes set_hobj]. rewrite e4. destruct (Nat.eq_dec j i) as [->|Dj].
    + rewrite !fupd_same. cbn. apply (H_fn _ _ H).
    + rewrite !fupd_other by auto. apply (H_fn _ _ H).
  - intros j. cbn [hl hk hashes set_hobj hseqs]. rewrite e2, e3, e4. destruct (Nat.eq_dec j i) as [->|Dj].
    + rewrite !fupd_same. cbn [table]. apply htab_nil. eapply htab_any. apply (H_tab _ _ H).
    + rewrite !fupd_other by auto. apply (H_tab _ _ H).
  - intros j y Hy. cbn in Hy. apply Hin in Hy as (_ & Hy & Hn). apply Hex. split; auto. eapply H_owned; eauto.
  - intros j1 j2 y Hy1 Hy2. cbn in *. apply Hin in Hy1 as (_ & Hy1 & _). apply Hin in Hy2 as (_ & Hy2 & _). eapply (H_disj _ _ H); eauto.
  - intros j y z k' v1 v2 Hy Hz Ey Ez. cbn in *. apply Hin in Hy as (_ & Hy & n1). apply Hin in Hz as (_ & Hz & n2).
    rewrite drop_node_notin in Ey, Ez by auto. eapply (H_uniq _ _ H); eauto.
  - intros j y k' v1 Hy Ey. cbn in *. apply Hin in Hy as (_ & Hy & n1).
    rewrite drop_node_notin in Ey by auto. eapply (H_cached _ _ H); eauto.
  - intros y Hy Hb. apply Hex in Hy as [Hy Hn]. cbn [hl ll set_hobj left]. rewrite e1, e2.
    apply (H_loose _ _ H); auto. intros [j K]. apply Hb. exists j. cbn.
    destruct (Nat.eq_dec j i) as [->|Dj]; [tauto|]. now rewrite fupd_other.
Qed.

Lemma sim_hempty_keep w A i reset : HR w A ->
  exists w', hempty w i false reset = Ok w' /\
    HR w' (HAbs (fupd (hseqs A) i []) (node A)
            (if reset then mark (hseqs A i) 0%N (carried A) else carried A)
            (mark (hseqs A i) true (left A))).
Proof.
  intros H. pose proof (H_list _ _ H i) as (Nd & Z & Hh & Ht & Sg).
  unfold hempty. rewrite (H_num _ _ H), Nnat.Nat2N.id, Hh.
  destruct (empty_loop_keep reset (ll w) (hseqs A i) 0 w) as (w1 & E & e1 & e2 & e3 & e4 & e5 & e6); auto.
  { intros y Hy. eapply halive_in; eauto. }
  rewrite E. cbn [bind]. eexists; split; [reflexivity|].
  assert (Hin : forall j y, In y (fupd (hseqs A) i [] j) -> j <> i /\ In y (hseqs A j) /\ ~ In y (hseqs A i)).
  { intros j y. destruct (Nat.eq_dec j i) as [->|Dj]; [rewrite fupd_same; intros []|].
    rewrite fupd_other by auto. intros K. split; auto. split; auto. intros K2. apply Dj. now apply (H_disj _ _ H j i y). }
  assert (Hkk : forall y, ~ In y (hseqs A i) -> hk w1 y = hk w y).
  { intros y Hy. rewrite e6. destruct reset; auto. now apply mark_notin. }
  assert (Hcc : forall y, ~ In y (hseqs A i) -> (if reset then mark (hseqs A i) 0%N (carried A) else carried A) y = carried A y).
  { intros y Hy. destruct reset; auto. now apply mark_notin. }
  split; cbn [halive ll hl hk nd hashes set_hobj hseqs node carried left].
  - intros y. rewrite e2. apply (H_alive _ _ H).
  - intros y. rewrite e3. apply (H_node _ _ H).
  - apply (H_null _ _ H).
  - intros y Hy. rewrite e6. destruct reset; [|now apply (H_hk _ _ H)].
    destruct (in_dec Nat.eq_dec y (hseqs A i)) as [K|K].
    + now rewrite !mark_in.
    + rewrite !mark_notin by auto. now apply (H_hk _ _ H).
  - intros j. rewrite e1, e4. destruct (Nat.eq_dec j i) as [->|Dj].
    + rewrite !fupd_same. repeat split; auto; constructor.
    + rewrite !fupd_other by auto. apply (H_list _ _ H).
  - intros j. rewrite e4. destruct (Nat.eq_dec j i) as [->|Dj].
    + now rewrite !fupd_same.
    + rewrite !fupd_other by auto. apply (H_num _ _ H).
  - intros j b. rewrite e4. destruct (Nat.eq_dec j i) as [->|Dj].
    + rewrite !fupd_same. cbn. apply (H_fn _ _ H).
    + rewrite !fupd_other by auto. apply (H_fn _ _ H).
  - intros j. rewrite e4. destruct (Nat.eq_dec j i) as [->|Dj].
    + rewrite !fupd_same. cbn [table]. apply htab_nil. eapply htab_any. apply (H_tab _ _ H).
    + rewrite !fupd_other by auto.
      assert (Hn : forall y, In y (hseqs A j) -> ~ In y (hseqs A i)) by (intros y K1 K2; apply Dj; now apply (H_disj _ _ H j i y)).
      apply htab_frame with (hl w) (hk w) (hseqs A j); [| | |apply (H_tab _ _ H)]; try tauto.
      * intros y Hy. destruct (e5 y) as [-> ->]. rewrite !mark_notin; auto.
      * intros y Hy. apply Hkk; auto.
  - intros j y Hy. apply Hin in Hy as (_ & Hy & _). exact (H_owned _ _ H _ _ Hy).
  - intros j1 j2 y Hy1 Hy2. apply Hin in Hy1 as (_ & Hy1 & _). apply Hin in Hy2 as (_ & Hy2 & _). eapply (H_disj _ _ H); eauto.
  - intros j y z k' v1 v2 Hy Hz. apply Hin in Hy as (_ & Hy & n1). apply Hin in Hz as (_ & Hz & n2). eapply (H_uniq _ _ H); eauto.
  - intros j y k' v1 Hy Ey. apply Hin in Hy as (_ & Hy & n1). rewrite Hcc by auto. eapply (H_cached _ _ H); eauto.
  - intros y Hy Hb. destruct (e5 y) as [-> ->]. rewrite e1.
    destruct (in_dec Nat.eq_dec y (hseqs A i)) as [K|K].
    + rewrite !mark_in by auto. repeat split; auto; discriminate.
    + rewrite !mark_notin by auto. apply (H_loose _ _ H); auto. intros [j K2]. apply Hb. exists j. cbn.
      destruct (Nat.eq_dec j i) as [->|Dj]; [tauto|]. now rewrite fupd_other.
Qed.

(** ** All calls *)
Lemma sim_value (after : bool) w A i pos k v a : HR w A -> hfree A a -> hposition A i pos -> lookup A i k = 0 ->
  exists w', insert_value after w i pos k v a = Ok (w', a) /\
    HR w' (attach hash (fresh_node A a k v) i (put after pos a (hseqs A i)) a k).
Proof.
  intros H Hf Hp Hl. unfold insert_value.
  destruct (HR_new w A k v a H Hf) as (w1 & E1 & H1 & _). rewrite E1. cbn [bind].
  assert (Na : forall j, ~ In a (hseqs A j)).
  { intros j K. apply (H_owned _ _ H) in K. now apply K, Hf. }
  assert (Hl1 : lookup (fresh_node A a k v) i k = 0).
  { rewrite <- Hl. unfold lookup. f_equal. apply filter_ext_in. intros y Hy. unfold has_key. cbn.
    rewrite fupd_other; auto. intros ->. eapply Na; eauto. }
  destruct (sim_insert_node after w1 (fresh_node A a k v) i pos a k v H1) as (w2 & E2 & H2); auto.
  - cbn. apply fupd_same.
  - intros [j K]. eapply Na; eauto.
  - left. cbn. apply fupd_same.
  - cbn. rewrite fupd_same. discriminate.
  - rewrite E2. cbn [bind]. rewrite (eqb_0 a) by apply Hf. eauto.
Qed.

Lemma sim_value_dup (after : bool) w A i pos k v a : HR w A -> hfree A a -> lookup A i k <> 0 ->
  exists w', insert_value after w i pos k v a = Ok (w', 0) /\ HR w' A.
Proof.
  intros H Hf Hl. unfold insert_value.
  destruct (HR_new w A k v a H Hf) as (w1 & E1 & H1 & _). rewrite E1. cbn [bind].
  assert (Na : forall j, ~ In a (hseqs A j)).
  { intros j K. apply (H_owned _ _ H) in K. now apply K, Hf. }
  assert (Hl1 : lookup (fresh_node A a k v) i k = lookup A i k).
  { unfold lookup. f_equal. apply filter_ext_in. intros y Hy. unfold has_key. cbn.
    rewrite fupd_other; auto. intros ->. eapply Na; eauto. }
  destruct (sim_insert_dup after w1 (fresh_node A a k v) i pos a k v H1) as (w2 & E2 & H2); auto.
  - cbn. apply fupd_same.
  - intros [j K]. eapply Na; eauto.
  - left. cbn. apply fupd_same.
  - congruence.
  - rewrite E2. cbn [bind Nat.eqb].
    destruct (HR_delete w2 _ a H2) as (w3 & E3 & H3).
    + unfold hexists; cbn. rewrite fupd_same. discriminate.
    + intros [j K]. eapply Na; eauto.
    + rewrite E3. cbn [bind]. eexists; split; [reflexivity|].
      apply HR_ext with (1 := H3); cbn; auto.
      * intros x. destruct (Nat.eq_dec x a) as [->|D].
        -- rewrite fupd_same. symmetry. apply Hf.
        -- now rewrite !fupd_other.
      * intros x Hx. unfold hexists in Hx; cbn in Hx. destruct (Nat.eq_dec x a) as [->|D].
        -- rewrite fupd_same in Hx. congruence.
        -- now rewrite !fupd_other.
      * intros x Hx. unfold hexists in Hx; cbn in Hx. destruct (Nat.eq_dec x a) as [->|D].
        -- rewrite fupd_same in Hx. congruence.
        -- now rewrite !fupd_other.
Qed.

Lemma sim_hstep w A c A' r : HR w A -> hstep hash A c A' r -> exists w', hexec w c = Ok (w', r) /\ HR w' A'.
Proof.
  intros H St. destruct St; cbn [hexec].
  - destruct (HR_new w A k v a H H0) as (w1 & E1 & H1 & _). rewrite E1. cbn. eauto.
  - destruct (HR_delete w A x H H0 H1) as (w1 & E1 & H2). rewrite E1. cbn. eauto.
  - destruct (HR_setkey w A x k k0 v H H0 H1) as (w1 & E1 & H2). rewrite E1. cbn. eauto.
  - apply (sim_value false); auto.
  - apply (sim_value true); auto.
  - apply (sim_insert_node false) with v; auto.
  - apply (sim_insert_node true) with v; auto.
  - apply (sim_value_dup false); auto.
  - apply (sim_value_dup true); auto.
  - apply (sim_insert_dup false) with v; auto.
  - apply (sim_insert_dup true) with v; auto.
  - apply (sim_insert_again false); auto.
  - apply (sim_insert_again true); auto.
  - apply sim_hdetach; auto.
  - cbn. eauto.
  - unfold hremove. destruct (sim_hdetach w A i x false H H0) as (w1 & E1 & H1). rewrite E1. cbn [bind Nat.eqb].
    destruct (HR_delete w1 _ x H1) as (w2 & E2 & H2).
    + apply (H_owned _ _ H i x H0).
    + eapply detached_not; eauto.
    + rewrite E2. cbn [bind]. eauto.
  - cbn. eauto.
  - unfold hpop. pose proof (H_list _ _ H i) as (_ & _ & _ & Ht & _). rewrite Ht.
    destruct (sim_hdetach w A i (last (hseqs A i) 0) reset H) as (w1 & E1 & H1); [now apply last_in|].
    rewrite E1. cbn [bind]. eauto.
  - unfold hpop. pose proof (H_list _ _ H i) as (_ & _ & _ & Ht & _). rewrite Ht, H0. cbn. eauto.
  - unfold hshift. pose proof (H_list _ _ H i) as (_ & _ & Ht & _ & _). rewrite Ht.
    destruct (sim_hdetach w A i (hd 0 (hseqs A i)) reset H) as (w1 & E1 & H1).
    { destruct (hseqs A i); [congruence|now left]. }
    rewrite E1. cbn [bind]. eauto.
  - unfold hshift. pose proof (H_list _ _ H i) as (_ & _ & Ht & _ & _). rewrite Ht, H0. cbn. eauto.
  - destruct (sim_hempty_delete w A i reset H) as (w1 & E1 & H1). rewrite E1. cbn. eauto.
  - destruct (sim_hempty_keep w A i reset H) as (w1 & E1 & H1). rewrite E1. cbn. eauto.
  - unfold find. rewrite (H_fn _ _ H), (find_from_Ok w A i k H). cbn. eauto.
  - rewrite (find_node_Ok w A i x k v H H0 H1). cbn. eauto.
  - apply HR_resize; auto.
  - cbn. eauto.
Qed.

Lemma sim_hrun cs : forall w A A' rs, HR w A -> hsteps hash A cs A' rs ->
  exists w', hrun w cs = Ok (w', rs) /\ HR w' A'.
Proof.
  induction cs as [|c cs IH]; intros w A A' rs H St; inversion St; subst.
  - exists w. auto.
  - match goal with S1 : hstep _ _ _ _ _, S2 : hsteps _ _ cs _ _ |- _ =>
      destruct (sim_hstep _ _ _ _ _ H S1) as (w1 & E1 & H1);
      destruct (IH _ _ _ _ H1 S2) as (w2 & E2 & H2) end.
    cbn. rewrite E1. cbn. rewrite E2. cbn. eauto.
Qed.

Lemma hobserve w A i n : HR w A -> length (hseqs A i) <= n ->
  walk (hnext w) n (hd_ (hends (hashes w i))) = Ok (hseqs A i) /\
  walk (hprev w) n (tl_ (hends (hashes w i))) = Ok (rev (hseqs A i)).
Proof.
  intros H Hn. pose proof (H_list _ _ H i) as (Nd & Z & Hh & Ht & S). split.
  - apply walk_seg; auto. intros l x r E. unfold hnext. rewrite getf_Ok.
    + f_equal. now apply (seg_last_pv _ _ _ _ S l x r).
    + apply (halive_in w A i); auto. rewrite E. apply in_or_app; right; now left.
  - apply walk_seg.
    + intros l x r E. apply (f_equal (@rev nat)) in E. rewrite rev_involutive, rev_app_distr in E. cbn in E.
      rewrite <- app_assoc in E. cbn in E. unfold hprev. rewrite getf_Ok.
      * f_equal. rewrite (proj2 (seg_last_pv _ _ _ _ S _ x _ E)). rewrite <- hd_rev, rev_involutive. reflexivity.
      * apply (halive_in w A i); auto. rewrite E. apply in_or_app; right; now left.
    + now rewrite <- in_rev.
    + now rewrite rev_length.
    + rewrite Ht, hd_rev. reflexivity.
Qed.
End P.

(** ** Copying *)
Section Copy.
Context {V : Type}.
Implicit Types (w : hworld V).

Definition chained (L : links) (xs : list nat) := forall l x r, xs = l ++ x :: r -> nx L x = hd 0 r.

Lemma rd_repeat0 s n : s < n -> rd (repeat 0 n) s = Ok 0.
Proof. intros H. apply rd_Ok. now apply nth_error_repeat. Qed.

Lemma clone_loop_ok n junk : 0 < n -> forall todo w p0 E done fresh,
  seg (ll w) p0 todo 0 ->
  (forall y, In y todo -> y <> 0 /\ halive w y = true /\ nd w y <> None) ->
  NoDup fresh -> length todo <= length fresh ->
  (forall a, In a fresh -> a <> 0 /\ halive w a = false) ->
  hd_ E = hd 0 done -> tl_ E = last done 0 -> ~ In 0 done -> NoDup done ->
  (forall y, In y done -> halive w y = true /\ ~ In y todo) ->
  chained (ll w) done ->
  exists w' E', clone_loop w E (repeat 0 n) (hd 0 todo) fresh junk = Ok (w', E') /\
    let cl := firstn (length todo) fresh in
    hd_ E' = hd 0 (done ++ cl) /\ tl_ E' = last (done ++ cl) 0 /\ chained (ll w') (done ++ cl) /\
    (forall y, halive w y = true \/ In y cl -> halive w' y = true) /\
    (forall y, halive w y = true -> nd w' y = nd w y) /\
    map (nd w') cl = map (nd w) todo /\ hashes w' = hashes w /\
    (forall y, halive w y = true -> ~ In y done -> nx (ll w') y = nx (ll w) y /\ pv (ll w') y = pv (ll w) y).
Proof.
  intros Hn. induction todo as [|x todo IH]; intros w p0 E done fresh Sg Src Ndf Hl Fr Eh Et Z Nd Dn Ch.
  - exists w, E. cbn [hd clone_loop length firstn map]. rewrite app_nil_r.
    split; [destruct fresh; reflexivity|]. repeat split; auto. intros y [?|[]]; auto.
  - cbn [length] in Hl. destruct fresh as [|a fr]; [cbn in Hl; lia|]. cbn [length] in Hl.
    destruct (Src x) as (X0 & Ax & Nx); [now left|].
    destruct (Fr a) as (A0 & Aa); [now left|].
    cbn [clone_loop hd]. rewrite (eqb_0 _ X0). unfold node_of. rewrite Ax.
    destruct (nd w x) as [kv|] eqn:Ekv; [|congruence]. cbn [bind].
    rewrite getf_Ok by auto. cbn [bind]. rewrite (eqb_0 _ A0), Aa. cbn [orb].
    rewrite slot_Ok by (rewrite repeat_length; auto). cbn [bind].
    rewrite rd_repeat0 by (rewrite repeat_length; apply slotn_lt; lia).
    apply NoDup_cons_iff in Ndf as [Naf Ndf].
    assert (Da : forall y, halive w y = true -> y <> a) by (intros y Hy ->; congruence).
    assert (STEP : exists L1, (if Nat.eqb (hd_ E) 0
         then Ok (Links (fupd (nx (ll w)) a 0) (fupd (pv (ll w)) a (junk a)), Ends a a)
         else let* nx2 := setf (fupd (halive w) a true) (fupd (nx (ll w)) a 0) (tl_ E) a in
              Ok (Links nx2 (fupd (fupd (pv (ll w)) a (junk a)) a (tl_ E)), Ends (hd_ E) a)) = Ok (L1, Ends (hd 0 (done ++ [a])) a) /\
        chained L1 (done ++ [a]) /\
        (forall y, y <> a -> ~ In y done -> nx L1 y = nx (ll w) y /\ pv L1 y = pv (ll w) y)).
    { destruct (done) as [|d ds] eqn:Ed.
      - rewrite Eh. cbn. eexists; split; [reflexivity|]. split.
        + intros l y r Q. destruct l as [|? [|? ?]]; inversion Q; subst. cbn. apply fupd_same.
        + intros y Dy _. cbn. now rewrite !fupd_other.
      - rewrite <- Ed in *. assert (Hne : done <> []) by (rewrite Ed; discriminate).
        assert (Hh : hd_ E <> 0) by (rewrite Eh, Ed; cbn; intros ->; apply Z; rewrite Ed; now left).
        rewrite (eqb_0 _ Hh). assert (Il : In (last done 0) done) by now apply last_in.
        destruct (Dn _ Il) as [Al _].
        rewrite Et, setf_Ok by (rewrite fupd_other by auto; auto). cbn [bind].
        eexists; split; [|split].
        + rewrite Eh, Ed. reflexivity.
        + intros l y r Q. cbn [nx].
          destruct (list_eq_dec Nat.eq_dec r []) as [->|Hr].
          * apply app_inj_tail in Q as [-> <-]. cbn [hd].
            rewrite fupd_other by (apply not_eq_sym, Da, Al). apply fupd_same.
          * destruct (exists_last Hr) as (r' & z & ->). rewrite app_comm_cons, app_assoc in Q.
            apply app_inj_tail in Q as [Q ->].
            assert (Iy : In y done) by (rewrite Q; apply in_or_app; right; now left).
            destruct (list_eq_dec Nat.eq_dec r' []) as [->|Hr'].
            -- assert (y = last done 0) as -> by (rewrite Q, last_snoc; auto). cbn. apply fupd_same.
            -- rewrite fupd_other; [rewrite fupd_other by (apply Da, Dn; auto)|].
               ++ rewrite (Ch _ _ _ Q). destruct r'; [congruence|reflexivity].
               ++ intros Ey. rewrite Q in Nd. destruct (NoDup_mid _ _ _ Nd) as (_ & Pr & _).
                  rewrite Q, last_app_cons in Ey. apply Pr. rewrite Ey.
                  destruct r' as [|z' r'']; [congruence|].
                  replace (last (z' :: r'') y) with (last (z' :: r'') 0) by now rewrite !last_cons_d.
                  now apply last_in.
        + intros y Dy Ny. cbn. rewrite !fupd_other; auto. intros ->; auto. }
    destruct STEP as (L1 & E1 & Ch1 & Off). rewrite E1. cbn [bind Nat.eqb].
    rewrite getf_Ok by (rewrite fupd_other; auto). cbn [bind].
    cbn [seg] in Sg. destruct Sg as (S1 & S2 & S3).
    assert (Ndx : ~ In x done) by (intros K; apply Dn in K; destruct K as [_ K]; apply K; now left).
    destruct (Off x (Da _ Ax) Ndx) as [-> _]. rewrite S2.
    match goal with |- context[clone_loop ?w1 ?e _ _ _ _] => set (W := w1); set (EE := e) end.
    assert (Sal : forall y, In y todo -> halive w y = true) by (intros y Hy; apply Src; now right).
    assert (Snd : forall y, In y todo -> ~ In y done).
    { intros y Hy K. apply Dn in K. destruct K as [_ K]. apply K. now right. }
    destruct (IH W x EE (done ++ [a]) fr) as (w' & E' & Q & f1 & f2 & f3 & f4 & f5 & f6 & f7 & f8); auto.
    + apply seg_frame with (ll w); auto.
    + intros y Hy. destruct (Src y) as (s1 & s2 & s3); [now right|]. cbn.
      rewrite !fupd_other by auto; auto.
    + lia.
    + intros b Hb. cbn. rewrite fupd_other by (intros ->; auto). apply Fr. now right.
    + cbn. now rewrite last_snoc.
    + rewrite in_app_iff. cbn. intuition.
    + apply NoDup_app_intro; auto; [repeat constructor; cbn; tauto|].
      intros y Hy [<-|[]]. destruct (Dn _ Hy). congruence.
    + intros y Hy. apply in_app_or in Hy as [Hy|[<-|[]]]; cbn.
      * destruct (Dn _ Hy) as [d1 d2]. rewrite fupd_other by auto. split; auto. intros K; apply d2; now right.
      * rewrite fupd_same. split; auto. intros K. apply Sal in K. congruence.
    + exists w', E'. split; [exact Q|]. cbv zeta. cbn [length firstn]. rewrite <- app_assoc in f1, f2, f3. cbn [app] in f1, f2, f3.
      split; auto. split; auto. split; auto. split; [|split; [|split; [|split]]].
      * intros y [Hy|[<-|Hy]]; apply f4; cbn; [left|left|right; auto].
        -- rewrite fupd_other; auto.
        -- apply fupd_same.
      * intros y Hy. rewrite f5 by (cbn; rewrite fupd_other; auto). cbn. now rewrite fupd_other by auto.
      * cbn [map]. f_equal.
        -- rewrite f5 by (cbn; apply fupd_same). cbn. rewrite fupd_same. auto.
        -- rewrite f6. apply map_ext_in. intros y Hy. cbn. now rewrite fupd_other by auto.
      * rewrite f7. reflexivity.
      * intros y Hy Ny. destruct (f8 y) as [-> ->].
        -- cbn. rewrite fupd_other; auto.
        -- rewrite in_app_iff. cbn. intros [K|[K|[]]]; auto. subst. congruence.
        -- cbn. apply Off; auto.
Qed.

Lemma walk_chained w xs n : chained (ll w) xs -> ~ In 0 xs -> (forall y, In y xs -> halive w y = true) ->
  length xs <= n -> walk (hnext w) n (hd 0 xs) = Ok xs.
Proof.
  intros Ch Z Al Hn. apply walk_seg; auto. intros l x r E. unfold hnext. rewrite getf_Ok.
  - f_equal. now apply (Ch l).
  - apply Al. rewrite E. apply in_or_app; right; now left.
Qed.
End Copy.
