(** C129: File::Realpath on Windows and links. *)
From Coq Require Import String Ascii.
From Verif Require Import Base S_Utf8 M_Utf8 P_Utf8 S_Path M_Path S_WinPath M_WinPath P_WinPath Prop_WinPath P_MixedVar P_WinFile P_WinDir P_WinAbs Prop_WinAbs M_WinFile Prop_WinFile S_WinReal M_WinReal P_WinReal Prop_WinReal M_WinLinks P_WinLinks.
Open Scope N_scope.
Open Scope list_scope.
Notation length := List.length.

(** However the links lead on, and whatever the texts of the links, the loop ends after at most
    21 rounds for every byte of the arrays. *)
Theorem C129_ends : forall cap find gw ga gb g4 sgn vol f2 len sp f3 x2 k st,
  length f2 = cap -> (len < cap)%nat ->
  after cap find gw ga gb g4 sgn vol k {| s_f2 := f2; s_len := len; s_sp := sp; s_f3 := f3; s_x2 := x2; s_links := 0 |} st ->
  (k <= 21 * S cap)%nat.
Proof.
  intros cap find gw ga gb g4 sgn vol f2 len sp f3 x2 k st L F A.
  apply after_less in A; [|unfold fine; cbn [s_f2 s_len s_links]; repeat split; lia]. destruct A as [_ A].
  set (i := {| s_f2 := f2 |}) in A. assert (B : (left cap i <= 21 * S cap)%nat).
  { unfold left, i. cbn [s_links s_len s_sp]. change (20 - 0)%nat with 20%nat. lia. }
  lia.
Qed.
Print Assumptions C129_ends.

(** Without links it is what C102 is about. *)
Theorem C129_plain : forall cap find there gw ga gb g4 sgn vol g2 g3 result name, exists m, forall n, (m <= n)%nat ->
  WRealpath_links cap (plain_find find) there gw ga gb g4 sgn vol n g2 g3 result name =
  WRealpath cap find there gw sgn vol g2 g3 result name.
Proof.
  intros cap find there gw ga gb g4 sgn vol g2 g3 result name. unfold WRealpath_links, WRealpath.
  destruct (WGetPlatformFilename sgn vol g2 name false) as [[f2 ok]| |] eqn:E; try (exists O; reflexivity). cbn [bind].
  destruct ok; cbn [negb]; [|exists O; reflexivity]. destruct (cstr f2) as [s| |] eqn:Es; try (exists O; reflexivity). cbn [bind].
  exists (S (length s)). intros n L.
  destruct (starts false s_uni s); cbn [negb]; [|reflexivity]. destruct (blit g3 0 _) as [f3| |]; try reflexivity. cbn [bind].
  rewrite (rounds_plain cap find gw ga gb g4 sgn vol (length s) n) by lia. reflexivity.
Qed.
Print Assumptions C129_plain.

(** ** Following links *)

(** A link as it is stored when only the name it leads to is. *)
Definition alone (sl : bool) (T : list N) : reparse :=
  {| is_symlink := sl; words := text enc16 T; name_off := 0; name_len := 2 * length (text enc16 T) |}.

Lemma after_app cap find gw ga gb g4 sgn vol j k s1 s2 s3 : after cap find gw ga gb g4 sgn vol j s1 s2 ->
  after cap find gw ga gb g4 sgn vol k s2 s3 -> after cap find gw ga gb g4 sgn vol (j + k) s1 s3.
Proof. induction 1 as [st|j st st1 st2 E A IH]; intro H; [exact H|]. cbn [Nat.add]. econstructor; [exact E|exact (IH H)]. Qed.

Lemma links_start cap find there gw ga gb g4 sgn vol n g2 g3 result name v cs : names sgn name v cs ->
  length g2 = cap -> length g3 = cap -> (length (text enc8 v ++ wrender (map (text enc8) cs)) < cap)%nat ->
  settled v /\ exists q,
  let s := text enc8 v ++ wrender (map (text enc8) cs) in
  length (s ++ 0 :: q) = cap /\ ~ In 0 s /\
  WRealpath_links cap find there gw ga gb g4 sgn vol n g2 g3 result name =
  let* o := rounds cap find gw ga gb g4 sgn vol n {| s_f2 := s ++ 0 :: q; s_len := length s; s_sp := length (text enc8 v);
    s_f3 := text enc8 v ++ skipn (length (text enc8 v)) g3; s_x2 := length (text enc8 v); s_links := 0 |} in
  match o with
  | None => Ok (result, false)
  | Some (f3, x2) =>
      let* f3 := wr f3 x2 0 in
      if (length result <? S x2)%nat then Ok (result, false)
      else
        let* t := slice f3 0 (S x2) in
        let* result := blit result 0 t in
        let* r := cstr result in
        Ok (result, there r)
  end.
Proof.
  intros (W & C & A & V & G & Z & F) L2 L3 L. set (s := text enc8 v ++ wrender (map (text enc8) cs)) in *. destruct (volume_facts _ V) as (Sv & Hv & Bv & Pv).
  assert (NV : ~ begins_with p_vol (canon (win name))) by (destruct A as (_ & r & Fm & _); exact (volume_form _ _ _ r V Fm)).
  destruct (accepted_text sgn vol g2 name s A W C NV ltac:(lia)) as (E & Nz & Ln).
  destruct (Pv _ (rooted_parts (map (text enc8) cs))) as [P1 P2]. fold s in P1.
  split; [split; [intros ->; apply Hv; reflexivity|split; assumption]|].
  exists (skipn (S (length s)) g2). cbv zeta. split; [rewrite app_length; cbn [length]; rewrite skipn_length; lia|].
  split; [intro X; rewrite Forall_forall in Nz; exact (Nz 0 X eq_refl)|].
  unfold WRealpath_links. rewrite E. cbn [bind negb]. rewrite cstr_app by exact Nz. cbn [bind].
  replace (starts false s_uni s) with true by (symmetry; apply starts_cs; destruct Bv as [x Ex]; unfold s; rewrite Ex; eexists; rewrite <- app_assoc; reflexivity). cbn [negb].
  rewrite P1. replace (firstn (length (text enc8 v)) s) with (text enc8 v) by (unfold s; rewrite firstn_app, firstn_all, Nat.sub_diag; cbn [firstn]; rewrite app_nil_r; reflexivity).
  unfold s in L. rewrite app_length in L. rewrite blit_in by lia. reflexivity.
Qed.

(** A path v\cs\l\rest, where l is the first link and leads to the absolute name T, that is to
    v2\ds: Realpath gives what it gives for v2\ds\rest. *)
Theorem C129_absolute : forall cap find there gw ga gb g4 sgn vol g2 g3 result name v cs l rest sl T nm v2 p ds long,
  names sgn name v (cs ++ l :: rest) ->
  length gw = cap -> length g2 = cap -> length g3 = cap -> length ga = S LIM -> length gb = S LIM -> last ga 0 <> 92 ->
  (length (text enc8 v ++ wrender (map (text enc8) (cs ++ l :: rest))) < cap)%nat ->
  (forall p n, long p = Some n -> part n) ->
  clear_way find long v cs -> stays_within long (cap - 1) v cs ->
  (length (text enc8 (long_path long v cs ++ 92%N :: l)) <= cap - 1)%nat ->
  find (text enc16 (long_path long v cs ++ 92 :: l)) = Some {| stored_name := nm; link := Some (Some (alone sl T)) |} ->
  good_text T -> ~ In 0 T -> (2 * length (text enc16 T) <= N.to_nat 8182)%nat -> (length (text enc8 T) + length (text enc16 T) < length g4)%nat ->
  accepts sgn (text enc8 T) (text enc8 v2 ++ p) -> volume (text enc8 v2) -> good_text v2 -> ~ In 0 v2 -> rooted p -> (length (text enc8 v2) + length p + 3 <= LIM)%nat ->
  S_Path.resolve [] (wsplit p) = map (text enc8) ds -> Forall part ds ->
  (length (text enc8 v2 ++ wrender (map (text enc8) (ds ++ rest))) + 1 <= cap - 1)%nat ->
  clear_way find long v2 (ds ++ rest) -> stays_within long (cap - 1) v2 (ds ++ rest) ->
  let want := text enc8 (long_path long v2 (ds ++ rest)) in
  (length want < length result)%nat ->
  exists m, forall n, (m <= n)%nat ->
  WRealpath_links cap find there gw ga gb g4 sgn vol n g2 g3 result name = Ok (want ++ 0 :: skipn (S (length want)) result, there want).
Proof.
  intros cap find there gw ga gb g4 sgn vol g2 g3 result name v cs l rest sl T nm v2 p ds long
    N Lw L2 L3 La Lb Hl L Hlong C1 W1 Wl Fl G Z LT L4 A V2 G2 Z2 Rp Lp Er Pd Lwant C2 W2 want Lr.
  exists (length cs + (1 + (length (ds ++ rest) + 1)))%nat. intros n Ln. replace n with (length cs + (1 + (length (ds ++ rest) + (1 + (n - (length cs + (1 + (length (ds ++ rest) + 1))))))))%nat by lia.
  generalize (n - (length cs + (1 + (length (ds ++ rest) + 1))))%nat. intro k.
  destruct (links_start cap find there gw ga gb g4 sgn vol (length cs + (1 + (length (ds ++ rest) + (1 + k)))) g2 g3 result name v (cs ++ l :: rest) N L2 L3 L) as (Sv & q & Lq & Zq & E).
  cbv zeta in E. rewrite E. clear E.
  destruct N as (_ & _ & _ & V & _ & _ & F). apply Forall_app in F. destruct F as [F1 F2]. pose proof (Forall_inv F2) as Pl. apply Forall_inv_tail in F2.
  assert (Ew : wrender (map (text enc8) (cs ++ l :: rest)) = wrender (map (text enc8) cs) ++ 92 :: text enc8 l ++ wrender (map (text enc8) rest)) by (unfold wrender; rewrite map_app, flat_map_app; reflexivity).
  rewrite Ew in *. set (R := wrender (map (text enc8) rest)) in *. set (Rl := 92 :: text enc8 l ++ R) in *. set (D := wrender (map (text enc8) cs)) in *.
  rewrite app_length in L.
  destruct (way_ok cap find gw ga gb g4 sgn vol Lw long Hlong cs (text enc8 v) Rl (0 :: q) v (skipn (length (text enc8 v)) g3) 0 F1 eq_refl Sv ltac:(rewrite skipn_length; lia) W1 C1) as (z & Lz & Sl & A1).
  cbv zeta in A1. fold D in A1. rewrite <- !app_assoc in *. rewrite (rounds_after _ _ _ _ _ _ _ _ _ _ _ A1). clear A1.
  assert (HR : hd 92 R = 92) by (unfold R; destruct rest; reflexivity).
  destruct (step_part cap find gw ga gb g4 sgn vol Lw (text enc8 v ++ D) l R (0 :: q) (long_path long v cs) z 0 Sl Pl HR Lz Wl) as (z' & Lz' & St).
  cbv zeta in St. rewrite Fl in St. cbn [link] in St. change (20 <? 1)%nat with false in St. cbv iota in St.
  assert (Byt : Forall (fun c => c < 256) (text enc8 T)).
  { pose proof (text8_bytes T (proj1 G)) as B. eapply Forall_impl; [|exact B]. cbv beta. unfold isByte. intros; lia. }
  set (f2a := (text enc8 v ++ D) ++ 92 :: text enc8 l) in *.
  assert (E2 : (text enc8 v ++ D) ++ 92 :: text enc8 l ++ R ++ 0 :: q = f2a ++ R ++ 0 :: q) by (unfold f2a; rewrite <- !app_assoc; reflexivity).
  assert (E3 : (text enc8 v ++ D) ++ 92 :: text enc8 l ++ R = f2a ++ R) by (unfold f2a; rewrite <- !app_assoc; reflexivity).
  assert (E4 : text enc8 v ++ D ++ Rl ++ 0 :: q = f2a ++ R ++ 0 :: q) by (unfold f2a, Rl; rewrite <- !app_assoc; cbn [app]; rewrite <- !app_assoc; reflexivity).
  assert (E5 : text enc8 v ++ D ++ Rl = f2a ++ R) by (unfold f2a, Rl; rewrite <- !app_assoc; reflexivity).
  rewrite E2, E3 in St. rewrite E4, E5 in *.
  assert (Ewd : wrender (map (text enc8) (ds ++ rest)) = wrender (map (text enc8) ds) ++ R) by (unfold R, wrender; rewrite map_app, flat_map_app; reflexivity).
  assert (RR : rooted R) by (apply rooted_parts).
  destruct (follow_ok cap gw ga gb g4 sgn vol Lw sl T f2a R q (text enc8 (long_path long v cs ++ 92 :: l) ++ 0 :: z') 1 (text enc8 v2) p
    G Z LT L4 La Lb Hl A V2 Rp Lp Byt ltac:(rewrite app_length; cbn [length]; lia) Lq Zq RR) as (f2' & z2 & Lf & (q' & Ef) & Lz2 & Fo).
  { rewrite Er. rewrite Ewd in Lwant. rewrite !app_length in *. lia. }
  fold (alone sl T) in Fo. rewrite Fo in St. clear Fo. rewrite Er in *.
  cbn [Nat.add]. cbn [rounds]. rewrite St. cbn [bind]. clear St.
  assert (S2 : settled v2). { split; [intros ->; inversion V2; destruct u; discriminate|split; assumption]. }
  destruct (way_ok cap find gw ga gb g4 sgn vol Lw long Hlong (ds ++ rest) (text enc8 v2) [] (0 :: q') v2 z2 1 ltac:(apply Forall_app; split; assumption) eq_refl S2 Lz2 W2 C2) as (z3 & Lz3 & Sl3 & A3).
  cbv zeta in A3. rewrite !app_nil_r in A3. rewrite Ewd in A3. cbn [app] in A3.
  assert (E6 : f2' = text enc8 v2 ++ (wrender (map (text enc8) ds) ++ R) ++ 0 :: q') by (rewrite Ef, <- !app_assoc; reflexivity).
  assert (E7 : (text enc8 v2 ++ wrender (map (text enc8) ds)) ++ R = text enc8 v2 ++ wrender (map (text enc8) ds) ++ R) by (rewrite <- app_assoc; reflexivity).
  rewrite E6, E7. rewrite (rounds_after _ _ _ _ _ _ _ _ _ _ _ A3). clear A3.
  cbn [rounds]. unfold real_step. cbn [s_f2 s_len s_sp s_f3 s_x2 s_links]. rewrite Nat.leb_refl. cbn [bind]. fold want.
  assert (Zw : ~ In 0 want) by (apply text8_no0; apply Sl3). fold want in Lz3.
  pose proof (within_fits long (cap - 1) (ds ++ rest) v2 ltac:(rewrite app_length in Lwant; lia) W2) as Lt. fold want in Lt.
  pose proof (real_end there result want z3 Zw ltac:(rewrite app_length in Lwant; lia)) as RE. etransitivity; [exact RE|].
  destruct (Nat.ltb_spec (length result) (S (length want))); [lia|reflexivity].
Qed.
Print Assumptions C129_absolute.

(** A path v\cs\l\rest, where l is the first link and its text T is a relative name that, seen from
    v\cs\l itself, is below it: whatever there is, Realpath returns false. *)
Theorem C129_below_refuted : forall cap find there gw ga gb g4 sgn vol g2 g3 result name v cs l rest sl T nm ds long,
  names sgn name v (cs ++ l :: rest) ->
  length gw = cap -> length g2 = cap -> length g3 = cap -> length ga = S LIM -> length gb = S LIM -> last ga 0 <> 92 ->
  (length (text enc8 v ++ wrender (map (text enc8) (cs ++ l :: rest))) < cap)%nat ->
  (forall p n, long p = Some n -> part n) ->
  clear_way find long v cs -> stays_within long (cap - 1) v cs ->
  (length (text enc8 (long_path long v cs ++ 92%N :: l)) <= cap - 1)%nat ->
  find (text enc16 (long_path long v cs ++ 92 :: l)) = Some {| stored_name := nm; link := Some (Some (alone sl T)) |} ->
  good_text T -> ~ In 0 T -> (2 * length (text enc16 T) <= N.to_nat 8182)%nat -> (length (text enc8 T) + length (text enc16 T) < length g4)%nat ->
  accepts sgn (text enc8 T) (win (text enc8 T)) -> ~ begins_with [92; 92] (win (text enc8 T)) -> proper (hd [] (wsplit (win (text enc8 T)))) ->
  let d := wrender (map (text enc8) (cs ++ [l])) in
  accepts sgn (text enc8 v ++ d) (text enc8 v ++ d) -> Forall proper (wsplit d) ->
  (length (text enc8 v) + length d + length (text enc8 T) + 3 <= LIM)%nat ->
  wplace d (win (text enc8 T)) = map (text enc8) (cs ++ l :: ds) -> Forall part ds ->
  (length (text enc8 v ++ wrender (map (text enc8) (cs ++ l :: ds))) < cap)%nat ->
  exists m, forall n, (m <= n)%nat ->
  WRealpath_links cap find there gw ga gb g4 sgn vol n g2 g3 result name = Ok (result, false).
Proof.
  intros cap find there gw ga gb g4 sgn vol g2 g3 result name v cs l rest sl T nm ds long
    N Lw L2 L3 La Lb Hl L Hlong C1 W1 Wl Fl G Z LT L4 A NB Pr d Ad Fd Lp Ep Pd Lwant.
  exists (21 * S (length cs))%nat. intros n Ln.
  destruct (links_start cap find there gw ga gb g4 sgn vol n g2 g3 result name v (cs ++ l :: rest) N L2 L3 L) as (Sv & q & Lq & Zq & E).
  cbv zeta in E. rewrite E. clear E.
  destruct N as (_ & _ & _ & V & _ & _ & F). apply Forall_app in F. destruct F as [F1 F2]. pose proof (Forall_inv F2) as Pl. apply Forall_inv_tail in F2.
  assert (X : forall m k rest q z n, (k + m = 20)%nat -> Forall part rest ->
    length ((text enc8 v ++ wrender (map (text enc8) (cs ++ l :: rest))) ++ 0 :: q) = cap -> ~ In 0 (text enc8 v ++ wrender (map (text enc8) (cs ++ l :: rest))) ->
    (length (text enc8 v) + length z = cap)%nat -> (S m * S (length cs) <= n)%nat ->
    let s := text enc8 v ++ wrender (map (text enc8) (cs ++ l :: rest)) in
    rounds cap find gw ga gb g4 sgn vol n {| s_f2 := s ++ 0 :: q; s_len := length s; s_sp := length (text enc8 v);
      s_f3 := text enc8 v ++ z; s_x2 := length (text enc8 v); s_links := k |} = Ok None).
  { clear n Ln q Lq Zq L F2 rest. induction m as [|m IH]; intros k rest q z n K F2 Lq Zq Lz Ln s.
    all: assert (Ew : wrender (map (text enc8) (cs ++ l :: rest)) = wrender (map (text enc8) cs) ++ 92 :: text enc8 l ++ wrender (map (text enc8) rest)) by (unfold wrender; rewrite map_app, flat_map_app; reflexivity);
      assert (Ed : d = wrender (map (text enc8) cs) ++ 92 :: text enc8 l) by (unfold d, wrender; rewrite map_app, flat_map_app; cbn; rewrite app_nil_r; reflexivity);
      unfold s; clear s; rewrite Ew in *; set (R := wrender (map (text enc8) rest)) in *; set (Rl := 92 :: text enc8 l ++ R) in *; set (D := wrender (map (text enc8) cs)) in *;
      destruct (way_ok cap find gw ga gb g4 sgn vol Lw long Hlong cs (text enc8 v) Rl (0 :: q) v z k F1 eq_refl Sv Lz W1 C1) as (z1 & Lz1 & Sl & A1);
      cbv zeta in A1; fold D in A1; rewrite <- !app_assoc in *; replace n with (length cs + S (n - S (length cs)))%nat by lia; rewrite (rounds_after _ _ _ _ _ _ _ _ _ _ _ A1); clear A1;
      assert (HR : hd 92 R = 92) by (unfold R; destruct rest; reflexivity);
      destruct (step_part cap find gw ga gb g4 sgn vol Lw (text enc8 v ++ D) l R (0 :: q) (long_path long v cs) z1 k Sl Pl HR Lz1 Wl) as (z' & Lz' & St);
      cbv zeta in St; rewrite Fl in St; cbn [link] in St;
      set (f2a := (text enc8 v ++ D) ++ 92 :: text enc8 l) in *;
      assert (E2 : (text enc8 v ++ D) ++ 92 :: text enc8 l ++ R ++ 0 :: q = f2a ++ R ++ 0 :: q) by (unfold f2a; rewrite <- !app_assoc; reflexivity);
      assert (E3 : (text enc8 v ++ D) ++ 92 :: text enc8 l ++ R = f2a ++ R) by (unfold f2a; rewrite <- !app_assoc; reflexivity);
      assert (E4 : text enc8 v ++ D ++ Rl ++ 0 :: q = f2a ++ R ++ 0 :: q) by (unfold f2a, Rl; rewrite <- !app_assoc; cbn [app]; rewrite <- !app_assoc; reflexivity);
      assert (E5 : text enc8 v ++ D ++ Rl = f2a ++ R) by (unfold f2a, Rl; rewrite <- !app_assoc; reflexivity);
      rewrite E2, E3 in St; rewrite E4, E5 in *; cbn [rounds]; rewrite St; clear St.
    - replace (20 <? S k)%nat with true by (symmetry; apply Nat.ltb_lt; lia). reflexivity.
    - replace (20 <? S k)%nat with false by (symmetry; apply Nat.ltb_ge; lia).
      assert (Byt : forall t, good_text t -> Forall (fun c => c < 256) (text enc8 t)).
      { intros t Gt. pose proof (text8_bytes t (proj1 Gt)) as B. eapply Forall_impl; [|exact B]. cbv beta. unfold isByte. intros; lia. }
      assert (Gf : exists t, good_text t /\ f2a = text enc8 t).
      { clear - Sv F1 Pl Lw. exists (v ++ flat_map (fun c => 92 :: c) (cs ++ [l])). unfold f2a, D. clear f2a D.
        assert (P : Forall part (cs ++ [l])) by (apply Forall_app; split; [exact F1|constructor; [exact Pl|constructor]]).
        assert (S2 : forall l a, Forall part l -> settled a -> settled (a ++ flat_map (fun c => 92 :: c) l)).
        { induction l0 as [|c l0 IH]; intros a P0 Sa; [cbn; rewrite app_nil_r; exact Sa|]. cbn [flat_map]. rewrite app_assoc. apply IH; [exact (Forall_inv_tail P0)|]. apply (settled_add cap gw Lw); [exact Sa|exact (Forall_inv P0)]. }
        split; [apply S2; assumption|]. rewrite flat_map_app. cbn [flat_map]. rewrite app_nil_r, !text_app, <- app_assoc. f_equal. f_equal.
        clear. induction cs as [|c cs IH]; [reflexivity|]. cbn [map wrender flat_map]. rewrite text_app. fold (wrender (map (text enc8) cs)). rewrite <- IH. reflexivity. }
      destruct Gf as (tf & Gf & Etf).
      assert (Efd : f2a = text enc8 v ++ d) by (unfold f2a; rewrite Ed, <- app_assoc; reflexivity).
      destruct (follow_rel cap gw ga gb g4 sgn vol Lw sl T f2a R q (text enc8 (long_path long v cs ++ 92 :: l) ++ 0 :: z') (S k) (text enc8 v) d (map (text enc8) (cs ++ l :: ds))
        G Z LT L4 La Lb Hl A NB Pr Efd) as [O|(f2' & z2 & Lf & (q' & Ef) & Lz2 & Zw & O)].
      + exists tf. auto.
      + rewrite Efd. exact Ad.
      + exact V.
      + apply rooted_parts.
      + exact Fd.
      + exact Lp.
      + apply Byt. exact G.
      + rewrite Etf. apply Byt. exact Gf.
      + rewrite app_length. cbn [length]. lia.
      + exact Lq.
      + exact Zq.
      + apply rooted_parts.
      + exact Ep.
      + exact Lwant.
      + fold (alone sl T) in O. rewrite O. reflexivity.
      + fold (alone sl T) in O. rewrite O. clear O. cbn [bind].
        assert (E8 : wrender (map (text enc8) (cs ++ l :: ds ++ rest)) = wrender (map (text enc8) (cs ++ l :: ds)) ++ R).
        { unfold R, wrender. replace (cs ++ l :: ds ++ rest) with ((cs ++ l :: ds) ++ rest) by (rewrite <- app_assoc; reflexivity). rewrite map_app, flat_map_app. reflexivity. }
        pose proof (IH (S k) (ds ++ rest) q' z2 (n - S (length cs))%nat) as I. cbv zeta in I. rewrite E8 in I.
        assert (E9 : (text enc8 v ++ wrender (map (text enc8) (cs ++ l :: ds))) ++ R = text enc8 v ++ wrender (map (text enc8) (cs ++ l :: ds)) ++ R) by (rewrite <- app_assoc; reflexivity).
        rewrite Ef, E9. rewrite <- !app_assoc in I. rewrite <- !app_assoc. apply I.
        * lia.
        * apply Forall_app. split; assumption.
        * rewrite Ef, <- !app_assoc in Lf. exact Lf.
        * rewrite app_assoc. intro Y. apply in_app_or in Y. destruct Y as [Y|Y]; [exact (Zw Y)|]. apply Zq. apply in_or_app. right. exact Y.
        * exact Lz2.
        * cbn [Nat.mul] in Ln. lia. }
  rewrite (X 20%nat 0%nat rest q (skipn (length (text enc8 v)) g3) n eq_refl F2 Lq Zq) by (try exact Ln; rewrite skipn_length; rewrite app_length in L; lia).
  reflexivity.
Qed.
Print Assumptions C129_below_refuted.

(** A link C:\l, asked for as C:\l\x in arrays of 8192 bytes. *)
Definition link_at (t : string) (off len : nat) (w : list N) : option entry :=
  if list_eq_dec N.eq_dec w (chars "\\?\C:\l")
  then Some {| stored_name := chars "l"; link := Some (Some {| is_symlink := true; words := chars t; name_off := off; name_len := len |}) |}
  else None.
Definition ask (t : string) (off len : nat) (there : bytes -> bool) : res (bytes * bool) :=
  let g := repeat 7 (N.to_nat 8192) in
  WRealpath_links (N.to_nat 8192) (link_at t off len) there g g g g true none (N.to_nat 200000) g g (repeat 9 13) (chars "c:/l/x").

(** Where a link leads to: its text is that of [len] bytes from byte [off] on of what is stored,
    and is seen from the directory the link is in. *)
Definition link_text (t : string) (off len : nat) : bytes := firstn (len / 2) (skipn (off / 2) (chars t)).

(** The text is stored alone and absolute: the link is followed. *)
Theorem C129_alone : link_text "\??\C:\t" 0 16 = chars "\??\C:\t" /\
  forall there, ask "\??\C:\t" 0 16 there = Ok (chars "\\?\C:\t\x" ++ [0; 9; 9], there (chars "\\?\C:\t\x")).
Proof. split; [vm_compute; reflexivity|]. intro there. vm_compute. reflexivity. Qed.

(** A link C:\l to "t", that is to C:\t, is not followed, whatever there is. *)
Theorem C129_relative_refuted : link_text "t" 0 2 = chars "t" /\ forall there, ask "t" 0 2 there = Ok (repeat 9 13, false).
Proof. split; [vm_compute; reflexivity|]. intro there. vm_compute. reflexivity. Qed.

(** The same by the theorem above. *)
Example C129_below_ex : forall there, let g := repeat 7 (N.to_nat 8192) in exists m, forall n, (m <= n)%nat ->
  WRealpath_links (N.to_nat 8192) (link_at "t" 0 2) there g g g g true none n g g (repeat 9 13) (chars "c:/l/x") = Ok (repeat 9 13, false).
Proof.
  intros there g.
  assert (Gt : forall t, forallb (fun c => (c <? 128) && (0 <? c)) t = true -> good_text t /\ ~ In 0 t).
  { intros t H. rewrite forallb_forall in H. repeat split.
    - apply Forall_forall. intros c I. specialize (H c I). apply andb_true_iff in H. destruct H as [H _]. apply N.ltb_lt in H. unfold allowed. rewrite N.mod_small by lia. repeat split; lia.
    - destruct t as [|c t]; [exact I|]. specialize (H c (or_introl eq_refl)). apply andb_true_iff in H. destruct H as [H _]. apply N.ltb_lt in H. unfold combining. lia.
    - intro I. specialize (H 0 I). discriminate H. }
  assert (Al : forall r, forallb (fun c => (32 <=? c) && (c <? 127) && negb (existsb (N.eqb c) [58; 42; 63; 34; 60; 62; 124])) r = true -> Forall (wallowed true) r).
  { intros r H. rewrite forallb_forall in H. apply Forall_forall. intros c I. specialize (H c I). apply andb_true_iff in H. destruct H as [H H3]. apply andb_true_iff in H. destruct H as [H1 H2].
    apply N.leb_le in H1. apply N.ltb_lt in H2. apply negb_true_iff in H3. unfold wallowed. repeat split; try lia. intro K.
    assert (existsb (N.eqb c) [58; 42; 63; 34; 60; 62; 124] = true) by (apply existsb_exists; exists c; split; [exact K|apply N.eqb_refl]). congruence. }
  assert (Dv : forall ws, forallb (fun w => (length w <=? 2)%nat) ws = true -> Forall (fun w => ~ is_device w) ws).
  { intros ws H. rewrite forallb_forall in H. apply Forall_forall. intros w I K. specialize (H w I). apply Nat.leb_le in H.
    assert (Ls : forall w, (length (stem w) <= length w)%nat) by (induction w0 as [|a w0 IH]; [apply le_n|cbn; destruct (a =? 46); cbn; lia]). specialize (Ls w).
    assert (M : length (map upper (stem w)) = length (stem w)) by apply map_length. unfold is_device, reserved in K. cbn [In] in K.
    destruct K as [[K|[K|[K|[K|[K|[]]]]]]|(d & _ & [K|K])]; first [rewrite <- K in M|rewrite K in M]; cbn in M; lia. }
  assert (Pt : forall c, c <> [] -> forallb (fun c => (c <? 128) && (0 <? c)) c = true -> ~ In 92 c -> part c) by (intros c A B D; destruct (Gt c B) as [B1 B2]; split; auto).
  assert (Pl : part (chars "l")) by (apply Pt; [discriminate|reflexivity|intros [K|[]]; discriminate K]).
  assert (Px : part (chars "x")) by (apply Pt; [discriminate|reflexivity|intros [K|[]]; discriminate K]).
  assert (Ptt : part (chars "t")) by (apply Pt; [discriminate|reflexivity|intros [K|[]]; discriminate K]).
  assert (Lg : length g = N.to_nat 8192) by (unfold g; apply repeat_length).
  apply (C129_below_refuted (N.to_nat 8192) (link_at "t" 0 2) there g g g g true none g g (repeat 9 13) (chars "c:/l/x")
    (chars "\\?\C:") [] (chars "l") [chars "x"] true (chars "t") (chars "l") [chars "t"] (fun _ => None)); try exact Lg.
  - split; [exists (chars "c:/l/x"); split; [apply Gt; reflexivity|vm_compute; reflexivity]|]. split; [repeat (constructor; [vm_compute; split; reflexivity|]); constructor|].
    split; [|split; [|split; [apply Gt; reflexivity|split; [apply Gt; reflexivity|repeat (constructor; [assumption|]); constructor]]]].
    + split; [discriminate|]. exists (chars "\l\x"). split; [apply (f_drive 99 (chars "\l\x")); right; lia|]. split; [apply Al; reflexivity|]. apply Dv. vm_compute. reflexivity.
    + apply (v_drive 67). left. lia.
  - vm_compute. discriminate.
  - apply Nat.ltb_lt. vm_compute. reflexivity.
  - discriminate.
  - exact I.
  - exact I.
  - apply Nat.leb_le. vm_compute. reflexivity.
  - vm_compute. reflexivity.
  - apply Gt. reflexivity.
  - apply Gt. reflexivity.
  - apply Nat.leb_le. vm_compute. reflexivity.
  - apply Nat.ltb_lt. vm_compute. reflexivity.
  - split; [discriminate|]. exists (chars "t"). split; [apply f_plain|].
    + intros (r & K). discriminate K.
    + intros (r & K). discriminate K.
    + intros c r' K. discriminate K.
    + split; [apply Al; reflexivity|]. apply Dv. vm_compute. reflexivity.
  - intros (r & K). discriminate K.
  - split; discriminate.
  - split; [discriminate|]. exists (chars "\l"). split; [apply (f_unidrive 67 (chars "\l")); left; lia|]. split; [apply Al; reflexivity|]. apply Dv. vm_compute. reflexivity.
  - repeat (constructor; [split; discriminate|]). constructor.
  - apply Nat.leb_le. vm_compute. reflexivity.
  - vm_compute. reflexivity.
  - constructor; [exact Ptt|constructor].
  - apply Nat.ltb_lt. vm_compute. reflexivity.
Qed.

(** Nor is one to "..\t". *)
Theorem C129_up_refuted : link_text "..\t" 0 8 = chars "..\t" /\ forall there, ask "..\t" 0 8 there = Ok (repeat 9 13, false).
Proof. split; [vm_compute; reflexivity|]. intro there. vm_compute. reflexivity. Qed.

(** Nor is an absolute one, if a name to print is stored behind its text. *)
Theorem C129_joined_refuted : link_text "\??\C:\tC:\t" 0 16 = chars "\??\C:\t" /\ forall there, ask "\??\C:\tC:\t" 0 16 there = Ok (repeat 9 13, false).
Proof. split; [vm_compute; reflexivity|]. intro there. vm_compute. reflexivity. Qed.

(** And if that name is stored in front of it, then a link to C:\a\bcd leads to C:\bcd. *)
Theorem C129_wrong_refuted : link_text "C:\a\bcd\??\C:\a\bcd" 16 24 = chars "\??\C:\a\bcd" /\
  forall there, ask "C:\a\bcd\??\C:\a\bcd" 16 24 there = Ok (chars "\\?\C:\bcd\x" ++ [0], there (chars "\\?\C:\bcd\x")).
Proof. split; [vm_compute; reflexivity|]. intro there. vm_compute. reflexivity. Qed.

Print Assumptions C129_alone.
Print Assumptions C129_relative_refuted.
Print Assumptions C129_up_refuted.
Print Assumptions C129_joined_refuted.
Print Assumptions C129_wrong_refuted.
