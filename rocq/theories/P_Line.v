(** Proofs about reading lines. *)
From Verif Require Import Base S_File M_File P_File P_MixedVar S_Line M_Line.
Open Scope N_scope.
Local Arguments N.pow : simpl never.
Local Arguments W64 : simpl never.

Definition breakless (a : bytes) : Prop := ~ In 10 a /\ ~ In 13 a.

Lemma take_end a : breakless a -> take_line a = (a, []).
Proof.
  induction a as [|c a IH]; intros [H1 H2]; [reflexivity|]. cbn [take_line]. rewrite IH by (split; intro; [apply H1|apply H2]; right; assumption).
  destruct (N.eqb_spec c 10) as [->|_]; [exfalso; apply H1; left; reflexivity|].
  destruct (N.eqb_spec c 13) as [->|_]; [exfalso; apply H2; left; reflexivity|]. reflexivity.
Qed.

Lemma take_app a : breakless a -> forall c r, c = 10 \/ c = 13 -> take_line (a ++ c :: r) = (a ++ fst (take_line (c :: r)), snd (take_line (c :: r))).
Proof.
  induction a as [|x a IH]; intros [H1 H2] c r Hc; [apply surjective_pairing|]. cbn [app].
  change (take_line (x :: a ++ c :: r)) with (if x =? 10 then ([], a ++ c :: r) else if x =? 13 then ([], match a ++ c :: r with y :: r' => if y =? 10 then r' else a ++ c :: r | [] => [] end)
    else let (l, rest) := take_line (a ++ c :: r) in (x :: l, rest)).
  rewrite IH by (assumption || (split; intro; [apply H1|apply H2]; right; assumption)).
  destruct (N.eqb_spec x 10) as [->|_]; [exfalso; apply H1; left; reflexivity|].
  destruct (N.eqb_spec x 13) as [->|_]; [exfalso; apply H2; left; reflexivity|]. reflexivity.
Qed.

Lemma take_lf a r : breakless a -> take_line (a ++ 10 :: r) = (a, r).
Proof. intro H. rewrite take_app by auto. cbn. rewrite app_nil_r. reflexivity. Qed.
Lemma take_crlf a r : breakless a -> take_line (a ++ 13 :: 10 :: r) = (a, r).
Proof. intro H. rewrite take_app by auto. cbn. rewrite app_nil_r. reflexivity. Qed.
Lemma take_cr a r : breakless a -> hd 0 r <> 10 -> take_line (a ++ 13 :: r) = (a, r).
Proof.
  intros H Hr. rewrite take_app by auto. cbn. rewrite app_nil_r. destruct r as [|x r]; [reflexivity|]. cbn in Hr.
  destruct (N.eqb_spec x 10); [congruence|reflexivity].
Qed.

(** ** Searching *)
Lemma mchr_some c l : forall i, mchr c l = Some i -> exists a r, l = a ++ c :: r /\ length a = i /\ ~ In c a.
Proof.
  induction l as [|x l IH]; intros i E; [discriminate|]. cbn in E. destruct (N.eqb_spec x c) as [->|Hx].
  - injection E as <-. exists [], l. split; [reflexivity|]. split; [reflexivity|intros []].
  - destruct (mchr c l) as [j|]; [|discriminate]. injection E as <-. destruct (IH j eq_refl) as (a & r & -> & <- & Ha).
    exists (x :: a), r. split; [reflexivity|]. split; [reflexivity|]. intros [X|X]; [congruence|exact (Ha X)].
Qed.

Lemma mchr_none c l : mchr c l = None -> ~ In c l.
Proof.
  induction l as [|x l IH]; intros E; [intros []|]. cbn in E. destruct (N.eqb_spec x c) as [->|Hx]; [discriminate|].
  destruct (mchr c l); [discriminate|]. intros [X|X]; [congruence|exact (IH eq_refl X)].
Qed.

Lemma shown_len s : length (shown s) = length s.
Proof. apply map_length. Qed.

Lemma shown_nz s : Forall (fun c => c <> 0) (shown s).
Proof. unfold shown. apply Forall_map. apply Forall_forall. intros c _. destruct (N.eqb_spec c 0); [discriminate|assumption]. Qed.

Lemma mchr_shown c l : c <> 0 -> c <> 32 -> mchr c (shown l) = mchr c l.
Proof.
  intros H1 H2. induction l as [|x l IH]; [reflexivity|]. cbn [shown map mchr]. fold (shown l). rewrite IH. destruct (N.eqb_spec x 0) as [->|_]; [|reflexivity].
  destruct (N.eqb_spec 32 c); [congruence|]. destruct (N.eqb_spec 0 c); [congruence|reflexivity].
Qed.

(** ** Where the line ends *)
(** [t]: bytes fetched, a prefix of [s]; enough of them. *)
Definition enough (t s : bytes) : Prop := t = s \/ In 10 t \/ (exists a r, t = a ++ 13 :: r /\ r <> []).

Definition pick (t : bytes) : option nat * option nat :=
  match mchr 10 t, mchr 13 t with
  | Some i, Some j => if (i <? j)%nat then (Some i, None) else if (j <? i - 1)%nat then (None, Some j) else (Some i, Some j)
  | n, r => (n, r)
  end.

Lemma pick_ok t u : enough t (t ++ u) ->
  match pick t with
  | (Some i, None) => exists a r, t = a ++ 10 :: r /\ length a = i /\ take_line (t ++ u) = (a, r ++ u)
  | (Some i, Some j) => exists a r, t = a ++ 13 :: 10 :: r /\ length a = j /\ i = S j /\ take_line (t ++ u) = (a, r ++ u)
  | (None, Some j) => exists a r, t = a ++ 13 :: r /\ length a = j /\ take_line (t ++ u) = (a, r ++ u)
  | (None, None) => u = [] /\ take_line (t ++ u) = (t, [])
  end.
Proof.
  intro En. unfold pick. destruct (mchr 10 t) as [i|] eqn:E1; destruct (mchr 13 t) as [j|] eqn:E2.
  - destruct (mchr_some _ _ _ E1) as (a & r & Ea & La & Na). destruct (mchr_some _ _ _ E2) as (b & q & Eb & Lb & Nb).
    destruct (Nat.ltb_spec i j) as [Hij|Hij].
    + exists a, r. split; [exact Ea|]. split; [exact La|]. rewrite Ea, <- app_assoc. cbn [app]. apply take_lf. split; [exact Na|].
      intro X. apply Nb. assert (P : exists z, b = a ++ z).
      { exists (skipn i b). rewrite <- (firstn_skipn i b) at 1. f_equal.
        replace (firstn i b) with (firstn i t) by (rewrite Eb, firstn_app, (proj2 (Nat.sub_0_le i (length b))) by lia; cbn; rewrite app_nil_r; reflexivity).
        rewrite Ea, firstn_app, La, Nat.sub_diag, firstn_all2 by lia. cbn. apply app_nil_r. }
      destruct P as [z ->]. apply in_or_app. left. exact X.
    + assert (Hne : i <> j).
      { intros ->. assert (T : nth j t 0 = 10) by (rewrite Ea, app_nth2 by lia; rewrite La, Nat.sub_diag; reflexivity).
        rewrite Eb, app_nth2 in T by lia. rewrite Lb, Nat.sub_diag in T. discriminate. }
      assert (P : exists z, a = b ++ z).
      { exists (skipn j a). rewrite <- (firstn_skipn j a) at 1. f_equal.
        replace (firstn j a) with (firstn j t) by (rewrite Ea, firstn_app, (proj2 (Nat.sub_0_le j (length a))) by lia; cbn; rewrite app_nil_r; reflexivity).
        rewrite Eb, firstn_app, Lb, Nat.sub_diag, firstn_all2 by lia. cbn. apply app_nil_r. }
      destruct P as [z Ez]. assert (Bb : breakless b).
      { split; [|exact Nb]. intro X. apply Na. rewrite Ez. apply in_or_app. left. exact X. }
      assert (Ez2 : z ++ 10 :: r = 13 :: q).
      { apply (app_inv_head b). rewrite app_assoc, <- Ez, <- Ea. exact Eb. }
      destruct z as [|z0 z]; [discriminate|]. injection Ez2 as -> Eq. rewrite Ez, app_length in La. cbn [length] in La.
      destruct (Nat.ltb_spec j (i - 1)) as [Hj|Hj].
      * exists b, q. split; [exact Eb|]. split; [exact Lb|]. rewrite Eb, <- app_assoc. cbn [app]. apply take_cr; [exact Bb|].
        destruct z as [|z1 z]; [cbn in La; lia|]. rewrite <- Eq. cbn. intros ->. apply Na. rewrite Ez. apply in_or_app. right. right. left. reflexivity.
      * destruct z as [|z1 z]; [|cbn in La; lia]. cbn in Eq. subst q. exists b, r. split; [exact Eb|]. split; [exact Lb|]. split; [cbn in La; lia|].
        rewrite Eb, <- app_assoc. cbn [app]. apply take_crlf. exact Bb.
  - destruct (mchr_some _ _ _ E1) as (a & r & Ea & La & Na). exists a, r. split; [exact Ea|]. split; [exact La|].
    rewrite Ea, <- app_assoc. cbn [app]. apply take_lf. split; [exact Na|]. apply mchr_none in E2. intro X. apply E2. rewrite Ea. apply in_or_app. left. exact X.
  - destruct (mchr_some _ _ _ E2) as (b & q & Eb & Lb & Nb). apply mchr_none in E1. exists b, q. split; [exact Eb|]. split; [exact Lb|].
    rewrite Eb, <- app_assoc. cbn [app]. apply take_cr.
    + split; [|exact Nb]. intro X. apply E1. rewrite Eb. apply in_or_app. left. exact X.
    + destruct q as [|x q].
      * destruct En as [En|[En|(a & r & En & Hr)]].
        -- assert (u = []) by (destruct u; [reflexivity|]; apply (f_equal (@length N)) in En; rewrite app_length in En; cbn in En; lia). subst u. discriminate.
        -- contradiction.
        -- exfalso. rewrite Eb in En. destruct (exists_last Hr) as (r' & z & ->). change (13 :: r' ++ [z]) with ((13 :: r') ++ [z]) in En.
           rewrite app_assoc in En. apply app_inj_tail in En. destruct En as [En _]. apply Nb. rewrite En. apply in_or_app. right. left. reflexivity.
      * cbn. intros ->. apply E1. rewrite Eb. apply in_or_app. right. right. left. reflexivity.
  - apply mchr_none in E1. apply mchr_none in E2. destruct En as [En|[En|(a & r & En & Hr)]].
    + assert (u = []) by (destruct u; [reflexivity|]; apply (f_equal (@length N)) in En; rewrite app_length in En; cbn in En; lia). subst u.
      split; [reflexivity|]. rewrite app_nil_r. apply take_end. split; assumption.
    + contradiction.
    + exfalso. apply E2. rewrite En. apply in_or_app. right. left. reflexivity.
Qed.

(** ** The end of the call *)
Lemma line_end_ok ww f d c p t u z g : sync true ww f d (AFile c (p + N.of_nat (length t))) -> enough t (t ++ u) ->
  exists f' d' l v, line_end f d (t ++ z :: g) (length t) = Ok (f', d', shown l) /\ take_line (t ++ u) = (l, v) /\
    (exists w, t ++ u = w ++ v /\ sync true ww f' d' (AFile c (p + N.of_nat (length w)))).
Proof.
  intros HS En. unfold line_end.
  assert (F1 : firstn (length t) (t ++ z :: g) = t) by (rewrite firstn_app, firstn_all, Nat.sub_diag; cbn; apply app_nil_r).
  assert (F2 : skipn (length t) (t ++ z :: g) = z :: g) by (rewrite skipn_app, skipn_all, Nat.sub_diag; reflexivity).
  rewrite F1, F2. fold (shown t).
  assert (F3 : firstn (length t) (shown t ++ z :: g) = shown t) by (rewrite <- (shown_len t) at 1; rewrite firstn_app, firstn_all, Nat.sub_diag; cbn; apply app_nil_r).
  cbv zeta. rewrite F3.
  rewrite !mchr_shown by discriminate. pose proof (pick_ok t u En) as P. unfold pick in P.
  assert (HB : N.of_nat (length t) < 2 ^ 62).
  { destruct HS as (_ & _ & _ & _ & _ & _ & _ & H8 & H9). unfold size in *. cbn [content apos] in *. lia. }
  assert (SK : forall k, (k <= length t)%nat -> exists f1 d1, Seek f d Backward (N.of_nat k) = (f1, d1, true) /\ sync true ww f1 d1 (AFile c (p + N.of_nat (length t - k)))).
  { intros k Hk. destruct (seek_ok f d _ true ww Backward (N.of_nat k) HS) as (f1 & d1 & E & S1); [cbn; rewrite W64_val; rewrite P62_val in HB; lia|exact I|].
    exists f1, d1. split; [exact E|]. cbn [target content apos] in S1. replace (p + N.of_nat (length t - k)) with (p + N.of_nat (length t) - N.of_nat k) by lia. exact S1. }
  assert (Cut : forall a r, t = a ++ r -> r <> [] -> wr (shown t ++ z :: g) (length a) 0 = Ok (shown a ++ 0 :: skipn 1 (shown r) ++ z :: g)).
  { intros a r -> Hr. destruct r as [|x r]; [congruence|]. unfold shown. rewrite map_app, <- app_assoc. cbn [map skipn app].
    rewrite <- (map_length (fun c => if c =? 0 then 32 else c) a) at 1. apply wr_mid. }
  match type of P with match ?e with _ => _ end => destruct e as [[i|] [j|]] end.
  - destruct P as (a & r & Et & La & -> & Tk). destruct (SK (length t - S j - 1)%nat ltac:(lia)) as (f1 & d1 & E & S1). rewrite E. subst j.
    rewrite (Cut a (13 :: 10 :: r) Et ltac:(discriminate)). cbn [bind]. rewrite cstr_app by apply shown_nz. cbn [bind].
    exists f1, d1, a, (r ++ u). split; [reflexivity|]. split; [exact Tk|]. exists (a ++ [13; 10]). split; [rewrite Et, <- !app_assoc; reflexivity|].
    replace (length (a ++ [13; 10])) with (length t - (length t - S (length a) - 1))%nat; [exact S1|]. rewrite Et, !app_length. cbn [length]. lia.
  - destruct P as (a & r & Et & La & Tk). destruct (SK (length t - i - 1)%nat ltac:(lia)) as (f1 & d1 & E & S1). rewrite E. subst i.
    rewrite (Cut a (10 :: r) Et ltac:(discriminate)). cbn [bind]. rewrite cstr_app by apply shown_nz. cbn [bind].
    exists f1, d1, a, (r ++ u). split; [reflexivity|]. split; [exact Tk|]. exists (a ++ [10]). split; [rewrite Et, <- !app_assoc; reflexivity|].
    replace (length (a ++ [10])) with (length t - (length t - length a - 1))%nat; [exact S1|]. rewrite Et, !app_length. cbn [length]. lia.
  - destruct P as (a & r & Et & La & Tk). destruct (SK (length t - j - 1)%nat ltac:(lia)) as (f1 & d1 & E & S1). rewrite E. subst j.
    rewrite (Cut a (13 :: r) Et ltac:(discriminate)). cbn [bind]. rewrite cstr_app by apply shown_nz. cbn [bind].
    exists f1, d1, a, (r ++ u). split; [reflexivity|]. split; [exact Tk|]. exists (a ++ [13]). split; [rewrite Et, <- !app_assoc; reflexivity|].
    replace (length (a ++ [13])) with (length t - (length t - length a - 1))%nat; [exact S1|]. rewrite Et, !app_length. cbn [length]. lia.
  - destruct P as (-> & Tk). pose proof (wr_mid (shown t) z g 0) as Wm. rewrite shown_len in Wm. rewrite Wm. cbn [bind]. rewrite cstr_app by apply shown_nz. cbn [bind].
    exists f, d, t, []. split; [reflexivity|]. split; [exact Tk|]. exists t. split; [reflexivity|exact HS].
Qed.

(** ** Fetching *)
Section Loop.
Variables (er : nat -> ev) (junk : nat -> N) (alt : bool) (hint : nat).
Hypothesis Hh : (0 < hint)%nat.
Hypothesis Hh2 : N.of_nat hint < W64.
Hypothesis Full : forall k, exists j, er k = Part j /\ (hint <= j)%nat.

Lemma fresh_len n : length (fresh_block junk n) = n.
Proof. unfold fresh_block. rewrite map_length. apply seq_length. Qed.

(** Room for the next chunk after the bytes [t]. *)
Lemma more_ok t z g : alt = true \/ hint = 1%nat -> length g = O ->
  exists b1, more junk alt hint (Some (t ++ z :: g)) (length t) = Ok (t ++ b1, (length t + hint)%nat) /\ length b1 = S hint.
Proof.
  intros H Hg. destruct g; [|discriminate]. cbn [more]. destruct alt eqn:Ea.
  - exists (z :: skipn (length (t ++ [z])) (fresh_block junk (length t + hint + 1))). rewrite <- app_assoc. cbn [app]. split; [reflexivity|].
    cbn [length]. rewrite skipn_length, fresh_len, app_length. cbn [length]. lia.
  - destruct H as [H| ->]; [discriminate|]. rewrite slice_in by (rewrite app_length; cbn [length]; lia). cbn [bind skipn].
    rewrite firstn_all2 by (rewrite app_length; cbn [length]; lia). rewrite blit_in by (rewrite fresh_len, app_length; cbn [length]; lia). cbn [bind firstn app].
    exists (z :: skipn (length t + 1 - 0) (fresh_block junk (length t + 1 + 1))). rewrite <- app_assoc. cbn [app]. rewrite app_length. cbn [length Nat.add].
    rewrite Nat.sub_0_r. split; [reflexivity|]. rewrite skipn_length, fresh_len. lia.
Qed.

(** One chunk into the room behind [t]. *)
Lemma chunk_ok ww fuel f d c p t b1 s : sync true ww f d (AFile c (p + N.of_nat (length t))) -> skipn (N.to_nat p) c = t ++ s -> length b1 = S hint ->
  exists f1 d1 x g z, Read er (S fuel) f d (N.of_nat hint) = Ok (f1, d1, true, x) /\ x = firstn hint s /\
    blit (t ++ b1) (length t + hint - hint) x = Ok (t ++ x ++ z :: g) /\ (length x = hint -> g = []) /\
    sync true ww f1 d1 (AFile c (p + N.of_nat (length (t ++ x)))).
Proof.
  intros HS Hc Hb.
  destruct (read_exact er fuel f d _ ww (N.of_nat hint) ltac:(intro k; rewrite Nat2N.id; apply Full) HS Hh2 ltac:(lia)) as (f1 & d1 & E & S1).
  cbn [apos content] in *. rewrite Nat2N.id in *.
  assert (Es : skipn (N.to_nat (p + N.of_nat (length t))) c = s).
  { replace (N.to_nat (p + N.of_nat (length t))) with (length t + N.to_nat p)%nat by lia. rewrite <- skipn_skipn, Hc, skipn_app, skipn_all, Nat.sub_diag. reflexivity. }
  rewrite Es in *. set (x := firstn hint s) in *. assert (Lx : (length x <= hint)%nat) by (unfold x; rewrite firstn_length; lia).
  destruct (skipn (length x) b1) as [|z g] eqn:Eg.
  { apply (f_equal (@length N)) in Eg. rewrite skipn_length in Eg. cbn in Eg. lia. }
  exists f1, d1, x, g, z. split; [exact E|]. split; [reflexivity|]. split.
  - replace (length t + hint - hint)%nat with (length t) by lia. rewrite blit_in by (rewrite app_length; lia). f_equal.
    rewrite firstn_app, Nat.sub_diag, firstn_all, skipn_app, (skipn_all2 t) by lia. cbn [firstn app]. rewrite app_nil_r.
    replace (length t + length x - length t)%nat with (length x) by lia. rewrite Eg. reflexivity.
  - split.
    + intro H. apply (f_equal (@length N)) in Eg. rewrite skipn_length in Eg. cbn [length] in Eg. destruct g; [reflexivity|cbn in Eg; lia].
    + rewrite app_length, Nat2N.inj_add, N.add_assoc. exact S1.
Qed.

Lemma line_loop_ok ww n : alt = true \/ hint = 1%nat -> forall fuel f d c p t z s, (length s < n * hint + hint)%nat -> (n < fuel)%nat ->
  sync true ww f d (AFile c (p + N.of_nat (length t))) -> skipn (N.to_nat p) c = t ++ s ->
  exists f1 d1 t' z' g' u, line_loop er junk alt hint fuel f d (Some (t ++ [z])) (length t) = Ok (f1, d1, t' ++ z' :: g', length t') /\
    t ++ s = t' ++ u /\ enough t' (t' ++ u) /\ sync true ww f1 d1 (AFile c (p + N.of_nat (length t'))).
Proof.
  intro H. induction n as [|n IH]; intros fuel f d c p t z s Hs Hf HS Hc; (destruct fuel as [|fuel]; [lia|]); cbn [line_loop];
    destruct (more_ok t z [] H eq_refl) as (b1 & Em & Lb); rewrite Em; cbn [bind];
    destruct (chunk_ok ww fuel f d c p t b1 s HS Hc Lb) as (f1 & d1 & x & g & zz & Er & Ex & Eb & Hg & S1);
    rewrite Er; cbn [bind]; rewrite Eb; cbn [bind].
  - assert (Lx : (length x < hint)%nat) by (rewrite Ex, firstn_length; lia).
    assert (x = s) by (rewrite Ex; apply firstn_all2; lia). subst s.
    destruct (Nat.ltb_spec (length x) hint) as [_|X]; [|lia].
    exists f1, d1, (t ++ x), zz, g, []. rewrite <- !app_assoc, app_nil_r. split; [|split; [reflexivity|split; [left; reflexivity|exact S1]]].
    do 2 f_equal. rewrite app_length. lia.
  - destruct (Nat.ltb_spec (length x) hint) as [Lx|Lx].
    + assert (x = s) by (rewrite Ex in Lx |- *; rewrite firstn_length in Lx; apply firstn_all2; lia). subst s.
      exists f1, d1, (t ++ x), zz, g, []. rewrite <- !app_assoc, app_nil_r. split; [|split; [reflexivity|split; [left; reflexivity|exact S1]]].
      do 2 f_equal. rewrite app_length. lia.
    + assert (Lx' : length x = hint) by (rewrite Ex, firstn_length in *; lia). rewrite (Hg Lx') in *.
      assert (Fx : firstn (length t + hint) (t ++ x ++ [zz]) = t ++ x).
      { rewrite app_assoc, <- Lx', <- app_length, firstn_app, Nat.sub_diag, firstn_all. cbn. apply app_nil_r. }
      assert (Ss : s = x ++ skipn hint s) by (rewrite Ex; symmetry; apply firstn_skipn).
      assert (Ls : length s = (hint + length (skipn hint s))%nat) by (rewrite Ss at 1; rewrite app_length; lia).
      assert (Sp : t ++ s = (t ++ x) ++ skipn hint s) by (rewrite Ss at 1; apply app_assoc).
      rewrite Fx. replace (length t + hint)%nat with (length (t ++ x)) by (rewrite app_length; lia). rewrite app_assoc.
      assert (Rec : exists f2 d2 t' z' g' u, line_loop er junk alt hint fuel f1 d1 (Some ((t ++ x) ++ [zz])) (length (t ++ x)) = Ok (f2, d2, t' ++ z' :: g', length t') /\
        t ++ s = t' ++ u /\ enough t' (t' ++ u) /\ sync true ww f2 d2 (AFile c (p + N.of_nat (length t')))).
      { rewrite Sp. apply IH; [nia|lia|exact S1|rewrite Hc; exact Sp]. }
      destruct (mchr 10 (t ++ x)) as [i|] eqn:M1.
      * exists f1, d1, (t ++ x), zz, [], (skipn hint s). split; [reflexivity|]. split; [exact Sp|]. split; [|exact S1].
        right. left. destruct (mchr_some _ _ _ M1) as (a & r & -> & _). apply in_or_app. right. left. reflexivity.
      * destruct (mchr 13 (t ++ x)) as [j|] eqn:M2; [|exact Rec]. destruct (Nat.ltb_spec j (length (t ++ x) - 1)) as [Hj|Hj]; [|exact Rec].
        exists f1, d1, (t ++ x), zz, [], (skipn hint s). split; [reflexivity|]. split; [exact Sp|]. split; [|exact S1].
        right. right. destruct (mchr_some _ _ _ M2) as (a & r & Ea & La & _). exists a, r. split; [exact Ea|]. intros ->. rewrite Ea, app_length in Hj. cbn in Hj. lia.
Qed.

(** The first chunk. *)
Lemma line_start ww fuel f d c p : sync true ww f d (AFile c p) ->
  let s := skipn (N.to_nat p) c in
  exists f1 d1 g z, Read er (S fuel) f d (N.of_nat hint) = Ok (f1, d1, true, firstn hint s) /\
    blit (fresh_block junk (hint + 1)) (hint - hint) (firstn hint s) = Ok (firstn hint s ++ z :: g) /\ (length (firstn hint s) = hint -> g = []) /\
    sync true ww f1 d1 (AFile c (p + N.of_nat (length (firstn hint s)))).
Proof.
  intros HS s. destruct (chunk_ok ww fuel f d c p [] (fresh_block junk (hint + 1)) s) as (f1 & d1 & x & g & z & E1 & -> & E2 & E3 & E4).
  - cbn [length]. rewrite N.add_0_r. exact HS.
  - reflexivity.
  - rewrite fresh_len. lia.
  - exists f1, d1, g, z. cbn [app length Nat.add] in *. split; [exact E1|]. split; [exact E2|]. split; [exact E3|exact E4].
Qed.

(** The line and its end, or the rest of the file, are in the first chunk. *)
Definition at_once (s : bytes) : Prop :=
  (length s < hint)%nat \/ In 10 (firstn hint s) \/ exists a r, firstn hint s = a ++ 13 :: r /\ r <> [].

Lemma line_input_ok ww fuel f d c p : (alt = true \/ hint = 1%nat) \/ at_once (skipn (N.to_nat p) c) ->
  sync true ww f d (AFile c p) -> (length c + 1 < fuel)%nat ->
  exists f' d' l v w, LineInput er junk alt hint fuel f d = Ok (f', d', Some (shown l)) /\
    take_line (skipn (N.to_nat p) c) = (l, v) /\ skipn (N.to_nat p) c = w ++ v /\ sync true ww f' d' (AFile c (p + N.of_nat (length w))).
Proof.
  intros H HS Hf. unfold LineInput. pose proof HS as (H1 & H2 & _). rewrite H1, H2. cbn [negb orb].
  destruct fuel as [|fuel]; [lia|]. set (s := skipn (N.to_nat p) c) in *. assert (Ls : (length s <= length c)%nat) by (unfold s; rewrite skipn_length; lia).
  assert (L : exists f1 d1 t' z' g' u, line_loop er junk alt hint (S fuel) f d None hint = Ok (f1, d1, t' ++ z' :: g', length t') /\
    s = t' ++ u /\ enough t' (t' ++ u) /\ sync true ww f1 d1 (AFile c (p + N.of_nat (length t')))).
  { cbn [line_loop more bind]. destruct (line_start ww fuel f d c p HS) as (f1 & d1 & g & z & E1 & E2 & E3 & E4). fold s in E1, E2, E3, E4.
    rewrite E1. cbn [bind]. rewrite E2. cbn [bind]. set (x := firstn hint s) in *. assert (Ss : s = x ++ skipn hint s) by (symmetry; apply firstn_skipn).
    destruct (Nat.ltb_spec (length x) hint) as [Lx|Lx].
    - assert (x = s) by (unfold x in *; rewrite firstn_length in Lx; apply firstn_all2; lia).
      exists f1, d1, x, z, g, []. split; [do 2 f_equal; lia|]. rewrite app_nil_r. split; [congruence|]. split; [left; reflexivity|exact E4].
    - assert (Lx' : length x = hint) by (unfold x in *; rewrite firstn_length in *; lia). rewrite (E3 Lx') in *.
      assert (Fx : firstn hint (x ++ [z]) = x) by (rewrite <- Lx' at 1; rewrite firstn_app, Nat.sub_diag, firstn_all; cbn; apply app_nil_r).
      rewrite Fx. 
      assert (Stop : enough x s -> exists f2 d2 t' z' g' u, Ok (f1, d1, x ++ [z], hint) = Ok (f2, d2, t' ++ z' :: g', length t') /\
        s = t' ++ u /\ enough t' (t' ++ u) /\ sync true ww f2 d2 (AFile c (p + N.of_nat (length t')))).
      { intro En. exists f1, d1, x, z, [], (skipn hint s). split; [rewrite Lx'; reflexivity|]. split; [exact Ss|]. rewrite <- Ss. split; [exact En|exact E4]. }
      assert (Rec : (alt = true \/ hint = 1%nat) -> exists f2 d2 t' z' g' u, line_loop er junk alt hint fuel f1 d1 (Some (x ++ [z])) hint = Ok (f2, d2, t' ++ z' :: g', length t') /\
        s = t' ++ u /\ enough t' (t' ++ u) /\ sync true ww f2 d2 (AFile c (p + N.of_nat (length t')))).
      { intro HA. destruct (line_loop_ok ww (length (skipn hint s)) HA fuel f1 d1 c p x z (skipn hint s)) as (f2 & d2 & t' & z' & g' & u & R1 & R2 & R3 & R4); [nia| |exact E4|exact Ss|rewrite Lx' in R1; rewrite <- Ss in R2; exists f2, d2, t', z', g', u; auto].
        apply (f_equal (@length N)) in Ss. rewrite app_length in Ss. lia. }
      destruct (mchr 10 x) as [i|] eqn:M1.
      + apply Stop. right. left. destruct (mchr_some _ _ _ M1) as (a & r & -> & _). apply in_or_app. right. left. reflexivity.
      + assert (Cont : (forall a r, x = a ++ 13 :: r -> r = []) -> alt = true \/ hint = 1%nat).
        { intro Hn. destruct H as [H|[H|[H|(a & r & Ea & Hr)]]]; [exact H| | |]; exfalso.
          - unfold x in Lx'. rewrite firstn_length in Lx'. lia.
          - exact (mchr_none _ _ M1 H).
          - exact (Hr (Hn a r Ea)). }
        destruct (mchr 13 x) as [j|] eqn:M2.
        * destruct (mchr_some _ _ _ M2) as (a & r & Ea & La & Na). destruct (Nat.ltb_spec j (hint - 1)) as [Hj|Hj].
          -- apply Stop. right. right. exists a, r. split; [exact Ea|]. intros ->. rewrite Ea, app_length in Lx'. cbn in Lx'. lia.
          -- apply Rec, Cont. intros a' r' E'. assert (r = []) by (destruct r; [reflexivity|]; rewrite Ea, app_length in Lx'; cbn in Lx'; lia). subst r.
             destruct r' as [|y r'] using rev_ind; [reflexivity|]. exfalso. rewrite E' in Ea. change (13 :: r' ++ [y]) with ((13 :: r') ++ [y]) in Ea.
             rewrite app_assoc in Ea. apply app_inj_tail in Ea. destruct Ea as [Ea _]. apply Na. rewrite <- Ea. apply in_or_app. right. left. reflexivity.
        * apply Rec, Cont. intros a' r' E'. exfalso. apply (mchr_none _ _ M2). rewrite E'. apply in_or_app. right. left. reflexivity. }
  destruct L as (f1 & d1 & t' & z' & g' & u & El & Es & En & S1).
  match goal with |- context [bind ?e _] => replace e with (Ok (f1, d1, t' ++ z' :: g', length t')) by (symmetry; exact El) end. cbn [bind].
  destruct (line_end_ok ww f1 d1 c p t' u z' g' S1 En) as (f2 & d2 & l & v & Ee & Tk & w & Ew & S2).
  match goal with |- context [bind ?e _] => replace e with (Ok (f2, d2, shown l)) by (symmetry; exact Ee) end. cbn [bind].
  exists f2, d2, l, v, w. split; [reflexivity|]. rewrite Es. split; [exact Tk|]. split; [exact Ew|exact S2].
Qed.
End Loop.

(** ** Successive calls *)
Section Calls.
Variables (er : nat -> ev) (junk : nat -> N) (alt : bool) (hint fuel : nat).

(** The answers of [n] calls. *)
Fixpoint calls (n : nat) (f : file) (d : disk) : res (list (option bytes)) :=
  match n with
  | O => Ok []
  | S m => let* (f1, d1, r) := LineInput er junk alt hint fuel f d in let* l := calls m f1 d1 in Ok (r :: l)
  end.
End Calls.

Lemma calls_ok er junk alt hint : (0 < hint)%nat -> N.of_nat hint < W64 -> (forall k, exists j, er k = Part j /\ (hint <= j)%nat) ->
  alt = true \/ hint = 1%nat -> forall n fuel ww f d c p, sync true ww f d (AFile c p) -> (length c + 1 < fuel)%nat ->
  calls er junk alt hint fuel n f d = Ok (map Some (some_lines n (skipn (N.to_nat p) c))).
Proof.
  intros H1 H2 H3 H4. induction n as [|n IH]; intros fuel ww f d c p HS Hf; [reflexivity|]. cbn [calls].
  destruct (line_input_ok er junk alt hint H1 H2 H3 ww fuel f d c p (or_introl H4) HS Hf) as (f' & d' & l & v & w & E & Tk & Ew & S').
  rewrite E. cbn [bind]. rewrite (IH fuel ww f' d' c (p + N.of_nat (length w)) S' Hf). cbn [bind some_lines map]. rewrite Tk. cbn [fst snd].
  do 4 f_equal. replace (N.to_nat (p + N.of_nat (length w))) with (length w + N.to_nat p)%nat by lia.
  rewrite <- skipn_skipn, Ew, skipn_app, skipn_all, Nat.sub_diag. reflexivity.
Qed.

(** ** What goes wrong *)
Lemma mchr_no c l : ~ In c l -> mchr c l = None.
Proof.
  induction l as [|x l IH]; intro H; [reflexivity|]. cbn. destruct (N.eqb_spec x c) as [->|_]; [exfalso; apply H; left; reflexivity|].
  rewrite IH; [reflexivity|]. intro X. apply H. right. exact X.
Qed.

Lemma line_grow er junk hint fuel ww f d c p : (2 <= hint)%nat -> N.of_nat hint < W64 -> (forall k, exists j, er k = Part j /\ (hint <= j)%nat) ->
  sync true ww f d (AFile c p) -> (hint <= length (skipn (N.to_nat p) c))%nat -> breakless (firstn hint (skipn (N.to_nat p) c)) ->
  LineInput er junk false hint (S (S fuel)) f d = UB.
Proof.
  intros H1 H2 H3 HS Hl [B1 B2]. unfold LineInput. pose proof HS as (O1 & O2 & _). rewrite O1, O2. cbn [negb orb].
  change (line_loop er junk false hint (S (S fuel)) f d None hint) with
    (let* (b1, cs1) := more junk false hint None hint in let* (f1, d1, ok, x) := Read er (S (S fuel)) f d (N.of_nat hint) in
      let* b2 := blit b1 (cs1 - hint) x in
      if (length x <? hint)%nat then Ok (f1, d1, b2, (cs1 - (hint - length x))%nat) else
        match mchr 10 (firstn cs1 b2) with Some _ => Ok (f1, d1, b2, cs1) | None =>
            match mchr 13 (firstn cs1 b2) with
            | Some i => if (i <? cs1 - 1)%nat then Ok (f1, d1, b2, cs1) else line_loop er junk false hint (S fuel) f1 d1 (Some b2) cs1
            | None => line_loop er junk false hint (S fuel) f1 d1 (Some b2) cs1 end end).
  cbn [more bind]. destruct (line_start er junk hint ltac:(lia) H2 H3 ww (S fuel) f d c p HS) as (f1 & d1 & g & z & E1 & E2 & E3 & E4).
  set (s := skipn (N.to_nat p) c) in *. rewrite E1. cbn [bind]. rewrite E2. cbn [bind].
  assert (Lx : length (firstn hint s) = hint) by (rewrite firstn_length; lia). rewrite (E3 Lx). set (x := firstn hint s) in *.
  destruct (Nat.ltb_spec (length x) hint); [lia|].
  assert (Fx : firstn hint (x ++ [z]) = x) by (rewrite <- Lx at 1; rewrite firstn_app, Nat.sub_diag, firstn_all; cbn; apply app_nil_r).
  rewrite Fx, !mchr_no by assumption. cbn [line_loop more]. unfold slice. rewrite app_length, Lx. cbn [length].
  destruct (Nat.leb_spec (0 + (hint + hint)) (hint + 1)); [lia|]. reflexivity.
Qed.

Lemma line_zero er junk alt fuel f d : opened f = true -> reads f = true -> LineInput er junk alt 0 fuel f d = Fuel.
Proof.
  intros H1 H2. unfold LineInput. rewrite H1, H2. cbn [negb orb].
  assert (R : forall k, Read er k f d (N.of_nat 0) = Ok (f, d, true, [])).
  { intro k. unfold Read. rewrite H1, H2. cbn [negb orb]. change (N.of_nat 0) with 0. destruct (N.ltb_spec (sub64 (max f) (curr f)) 0); [lia|]. reflexivity. }
  assert (L : forall k b, line_loop er junk alt 0 k f d b 0 = Fuel).
  { induction k as [|k IH]; intro b; [reflexivity|]. cbn [line_loop].
    assert (M : exists b1, more junk alt 0 b 0 = Ok (b1, O)).
    { destruct b as [b|]; cbn [more]; [|eexists; reflexivity]. cbn [Nat.add]. destruct alt; [eexists; reflexivity|].
      rewrite slice_in by (cbn; lia). cbn [bind]. rewrite blit_in by (cbn; lia). eexists. reflexivity. }
    destruct M as [b1 ->]. cbn [bind]. rewrite R. cbn [bind]. rewrite blit_in by (cbn; lia). cbn [bind length firstn mchr Nat.ltb Nat.leb]. apply IH. }
  rewrite L. reflexivity.
Qed.

(** ** Whole files *)
Lemma load_ok er fuel oo lo c r : N.of_nat (length c) < 2 ^ 62 -> LoadEntireFile er fuel oo lo c = Ok (Some r) -> r = c.
Proof.
  intros Hc. unfold LoadEntireFile, Open, Close. cbn [opened reads writes curr max]. destruct oo; cbn [negb]; [|discriminate]. destruct lo; cbn [negb]; [|discriminate].
  cbn [opened reads writes curr max]. intro E.
  assert (HS : sync true false (File true true false 0 (N.of_nat (length c))) (Disk c 0 0) (AFile c 0)).
  { unfold sync, size. cbn. repeat split; try lia; try exact Hc. }
  pose proof (read_ok er fuel _ _ _ false (N.of_nat (length c)) HS ltac:(cbn; rewrite W64_val; rewrite P62_val in Hc; lia)) as R.
  destruct (Read er fuel _ _ _) as [[[[f1 d1] ok] x]| |]; [|discriminate|discriminate]. cbn [bind] in E.
  destruct R as (a' & R1 & _). destruct ok; cbn [negb orb] in E; [|discriminate].
  destruct (N.eqb_spec (N.of_nat (length c)) (N.of_nat (length x))) as [Ex|]; cbn [negb] in E; [|discriminate]. injection E as <-.
  inversion R1; subst. cbn [content apos skipn] in *. change (N.to_nat 0) with O in *. cbn [skipn] in *. apply Nat2N.inj in Ex.
  match goal with H : x = firstn _ _ |- _ => rewrite H, <- Ex; apply firstn_all end.
Qed.

Lemma load_done er c : (forall k, exists j, er k = Part j /\ (length c <= j)%nat) -> N.of_nat (length c) < 2 ^ 62 ->
  LoadEntireFile er 1 true true c = Ok (Some c).
Proof.
  intros He Hc. unfold LoadEntireFile, Open, Close. cbn [opened reads writes curr max negb].
  assert (HS : sync true false (File true true false 0 (N.of_nat (length c))) (Disk c 0 0) (AFile c 0)).
  { unfold sync, size. cbn. repeat split; try lia; try exact Hc. }
  destruct c as [|c0 c].
  - reflexivity.
  - set (cc := c0 :: c) in *. destruct (read_exact er 0 _ _ _ false (N.of_nat (length cc)) ltac:(rewrite Nat2N.id; exact He) HS
      ltac:(rewrite W64_val; rewrite P62_val in Hc; lia) ltac:(cbn; lia)) as (f' & d' & E & _).
    rewrite Nat2N.id in E. cbn [apos content] in E. change (N.to_nat 0) with O in E. cbn [skipn] in E. rewrite firstn_all in E.
    rewrite E. cbn [bind negb orb]. rewrite N.eqb_refl. reflexivity.
Qed.
