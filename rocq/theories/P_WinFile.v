(** Proofs for Prop_WinFile. *)
From Verif Require Import Base P_MixedVar S_File S_WinFile S_Utf8 M_File M_Utf8 M_WinFile P_File P_Utf8.
Open Scope N_scope.
Local Arguments N.pow : simpl never.
Local Arguments W64 : simpl never.
Local Arguments DWORD : simpl never.

(** ** Files *)
Definition DWORD_val : DWORD = 4294967296 := eq_refl.

Lemma dword_small n : n < DWORD -> dword n = N.to_nat n.
Proof. intro H. unfold dword. rewrite N.mod_small by exact H. reflexivity. Qed.

Section Env.
Variables er ew : nat -> ev.

Lemma wread_ok f d a ww n : sync true ww f d a -> n < DWORD \/ size a - apos a < DWORD ->
  match WRead er f d n with
  | (f', d', ok, b) => exists a', wstep a (FRead n) (ABytes ok b) a' /\ sync true ww f' d' a'
  end.
Proof.
  intros HS Hm. pose proof HS as (H1 & H2 & H3 & H4 & H5 & H6 & H7 & H8 & H9).
  unfold WRead, UpdateMaxPos. rewrite H1, H2. cbn [negb orb fst].
  assert (Hup : File true true (writes f) (curr f) (N.of_nat (length (data d))) = f).
  { destruct f; cbn in *. subst. rewrite H4. fold (size a). congruence. }
  rewrite Hup.
  match goal with |- context [if ?c then f else f] => replace (if c then f else f) with f by (destruct c; reflexivity) end.
  rewrite H7, H6, sub64_le by exact H8.
  set (n1 := if size a - apos a <? n then _ else n).
  assert (Hn1 : n1 = N.min n (size a - apos a)).
  { unfold n1. destruct (N.ltb_spec (size a - apos a) n); [|lia]. lia. }
  rewrite Hn1. destruct (N.eqb_spec (N.min n (size a - apos a)) 0) as [E|E].
  - exists a. split; [|exact HS].
    replace a with (AFile (content a) (apos a + N.of_nat (length (@nil N)))) at 2 by (destruct a; cbn; f_equal; lia).
    constructor; [cbn; lia|reflexivity|intros _; lia].
  - rewrite dword_small by lia. unfold sys_read. destruct (er (used d)) as [k| |].
    2,3: exists a; split; [constructor|]; unfold sync, tick; cbn [data off]; repeat (split; [assumption|]); assumption.
    set (b := firstn _ _).
    assert (Lb : (length b <= N.to_nat (N.min n (size a - apos a)))%nat) by (unfold b; rewrite firstn_length; lia).
    rewrite w64_small by (rewrite P62_val, W64_val in *; lia).
    exists (AFile (content a) (apos a + N.of_nat (length b))). split.
    + constructor; [lia| |].
      * unfold b. rewrite H5, H4. symmetry. apply firstn_own.
      * intro Hb. apply (f_equal (@length N)) in Hb. unfold b in Hb. rewrite firstn_length, skipn_length, H4, H5 in Hb. unfold size in *. cbn [length] in Hb. lia.
    + unfold sync. cbn [opened reads writes curr max data off content apos]. unfold size in *. cbn [content].
      do 7 (split; [congruence || lia|]). split; [lia|exact H9].
Qed.

Lemma wwrite_ok f d a rr x : sync rr true f d a -> fvalid a (FWrite x) -> N.of_nat (length x) < DWORD -> (forall k, ew k <> Part 0) ->
  match WWrite ew f d x with
  | (f', d', ok, n) => exists a', wstep a (FWrite x) (AWrote ok n) a' /\ sync rr true f' d' a'
  end.
Proof.
  intros HS Hv Hm He. pose proof HS as (H1 & H2 & H3 & H4 & H5 & H6 & H7 & H8 & H9).
  unfold WWrite. rewrite H1, H3. cbn [negb orb].
  destruct (Nat.eqb_spec (length x) 0) as [E|E].
  - destruct x; [|discriminate E]. exists a. split; [|exact HS].
    replace a with (AFile (overwrite (content a) (apos a) (firstn 0 [])) (apos a + N.of_nat 0)) at 2.
    + apply (w_write a [] 0); [cbn; lia|reflexivity].
    + destruct a as [ac ap]; cbn [content apos firstn]. rewrite overwrite_nil. f_equal. lia.
  - rewrite dword_small, Nat2N.id, firstn_all by exact Hm.
    assert (Ho : off d <= N.of_nat (length (data d))) by (rewrite H5, H4; exact H8).
    destruct (ew (used d)) as [k| |] eqn:Ek.
    2,3: unfold sys_write; rewrite Ek; exists a; split; [constructor|]; unfold sync, tick; cbn [data off]; repeat (split; [assumption|]); assumption.
    rewrite (sys_write_part ew d x k Ho Ek).
    assert (Hk : (0 < k)%nat) by (pose proof (He (used d)) as X; rewrite Ek in X; destruct k; [congruence|lia]).
    set (m := length (firstn k x)). assert (Lm : (m <= length x)%nat) by (unfold m; rewrite firstn_length; lia).
    assert (Em : firstn k x = firstn m x) by (unfold m; symmetry; apply firstn_own).
    cbn [fvalid] in Hv. rewrite H6, H7, H4, H5. rewrite w64_small by (rewrite P62_val, W64_val in *; lia).
    exists (AFile (overwrite (content a) (apos a) (firstn m x)) (apos a + N.of_nat m)). split.
    + constructor; [exact Lm|]. intro X. destruct x; [reflexivity|]. unfold m in X. rewrite firstn_length in X. cbn [length] in X. lia.
    + rewrite <- Em. unfold sync. cbn [opened reads writes curr max data off content apos]. unfold size in *. cbn [content].
      rewrite overwrite_length by exact H8. fold m.
      do 6 (split; [assumption || reflexivity|]). split; [|lia].
      destruct (N.ltb_spec (N.of_nat (length (content a))) (apos a + N.of_nat m)); lia.
Qed.

(** For any number of operations the answers and the file are those of the specification. *)
Fixpoint wtracks (n : nat) (f : file) (d : disk) (a : afile) : Prop :=
  data d = content a /\ curr f = apos a /\ off d = apos a /\ max f = size a /\ apos a <= size a /\
  match n with
  | O => True
  | S m => forall o, fvalid a o -> no_wrap a o -> moderate a o ->
      let '(f', d', x) := wexec er ew f d o in exists a', wstep a o x a' /\ wtracks m f' d' a'
  end.

Lemma wtracks_ok n : (forall k, ew k <> Part 0) -> forall f d a, sync true true f d a -> wtracks n f d a.
Proof.
  intro He. induction n as [|n IH]; intros f d a HS; pose proof HS as (H1 & H2 & H3 & H4 & H5 & H6 & H7 & H8 & H9);
    cbn [wtracks]; (split; [exact H4|]; split; [exact H6|]; split; [exact H5|]; split; [exact H7|]; split; [exact H8|]); [exact I|].
  intros o Hv Hw Hm. destruct o as [w k|r|x]; cbn [wexec].
  - destruct (seek_ok f d a _ _ w k HS Hv Hw) as (f' & d' & E & HS'). rewrite E.
    eexists. split; [constructor|]. apply IH. exact HS'.
  - pose proof (wread_ok f d a _ r HS Hm) as L. destruct (WRead er f d r) as [[[f' d'] ok] b].
    destruct L as (a' & L1 & L2). exists a'. split; [exact L1|]. apply IH. exact L2.
  - pose proof (wwrite_ok f d a _ x HS Hv Hm He) as L. destruct (WWrite ew f d x) as [[[f' d'] ok] n'].
    destruct L as (a' & L1 & L2). exists a'. split; [exact L1|]. apply IH. exact L2.
Qed.
End Env.

(** ** Text *)
Definition stored (b o : list N) : list N := o ++ skipn (length o) b.

Lemma enc8_nz c : c <> 0 -> Forall (fun x => x <> 0) (enc8 c).
Proof.
  intro H. unfold enc8. destruct (c <? 128); [repeat constructor; exact H|].
  destruct (c <? 2048); [|destruct (c <? 65536)]; repeat (apply Forall_cons; [intro X; apply N.eq_add_0 in X; destruct X as [X _]; discriminate X|]); apply Forall_nil.
Qed.

Lemma text8_nz cps : ~ In 0 cps -> Forall (fun x => x <> 0) (text enc8 cps).
Proof.
  induction cps as [|c r IH]; intro H; [constructor|]. change (text enc8 (c :: r)) with (enc8 c ++ text enc8 r).
  apply Forall_app. split; [apply enc8_nz; intros ->; apply H; left; reflexivity|apply IH; intro X; apply H; right; exact X].
Qed.

Lemma text_app enc a b : text enc (a ++ b) = text enc a ++ text enc b.
Proof. unfold text. rewrite map_app, concat_app. reflexivity. Qed.

Lemma zero_allowed : allowed 0.
Proof. repeat split; try (vm_compute; congruence); intros [A B]; lia. Qed.

Lemma good_zeros cps n : good_text cps -> good_text (cps ++ repeat 0 n).
Proof.
  intros [G1 G2]. split.
  - apply Forall_app. split; [exact G1|]. clear. induction n; cbn [repeat]; constructor; [apply zero_allowed|assumption].
  - destruct cps as [|c r]; [|exact G2]. destruct n; cbn [repeat app]; [exact I|]. unfold combining. lia.
Qed.

Lemma zeros16 n : text enc16 (repeat 0 n) = repeat 0 n.
Proof. induction n as [|n IH]; [reflexivity|]. cbn [repeat]. change (text enc16 (0 :: repeat 0 n)) with ([0] ++ text enc16 (repeat 0 n)). rewrite IH. reflexivity. Qed.
Lemma zeros8 n : text enc8 (repeat 0 n) = repeat 0 n.
Proof. induction n as [|n IH]; [reflexivity|]. cbn [repeat]. change (text enc8 (0 :: repeat 0 n)) with ([0] ++ text enc8 (repeat 0 n)). rewrite IH. reflexivity. Qed.

Lemma to8_all cps b : good_text cps -> (length (text enc8 cps) <= length b)%nat ->
  exists lp, ConvertToUTF8 Wd2 (text enc16 cps) (Some b) (length b) = Ok (Some (stored b (text enc8 cps)), length (text enc8 cps), lp).
Proof.
  intros [G1 G2] L. destruct (convert_spec Wd2 (text enc16 cps) cps (Some b) (length b) (le_n _)) as (o & lp & E & K).
  { cbn [scans]. apply scan16_text. exact G1. }
  assert (o = text enc8 cps) as ->; [|exists lp; exact E].
  eapply keeps_fun; [exact K|]. apply (keeps_all enc8 (Some (length b)) enc8_len_pos cps []); [exact G1|intros _; exact G2|exact L].
Qed.

Lemma keeps_app enc cap out a b o1 o2 : keeps enc cap out a o1 -> keeps enc cap o1 b o2 -> keeps enc cap out (a ++ b) o2.
Proof.
  intro H. induction H as [out|out cp r o A H IH|out cp r o A H IH]; intro H2; cbn [app]; [exact H2| |].
  - apply k_take; [exact A|apply IH; exact H2].
  - apply k_drop; [exact A|apply IH; exact H2].
Qed.
