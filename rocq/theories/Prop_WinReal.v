(** Windows: File::Realpath of utf8_file_dir.cpp, without links. *)
From Coq Require Import String Ascii.
From Verif Require Import Base S_Utf8 M_Utf8 P_Utf8 S_WinPath M_WinPath P_WinPath Prop_WinPath P_MixedVar P_WinAbs Prop_WinAbs P_WinFile P_WinDir S_WinReal M_WinReal P_WinReal.
Open Scope N_scope.
Open Scope list_scope.
Notation length := List.length.

(** [name] is a proper file name, and stands for the components [cs] on the volume [v]. *)
Definition names (sgn : bool) (name v : list N) (cs : list (list N)) : Prop :=
  wf_utf8 name /\ Forall (fun c => 0 < c < 256) name /\ accepts sgn name (text enc8 v ++ wrender (map (text enc8) cs)) /\
  volume (text enc8 v) /\ good_text v /\ ~ In 0 v /\ Forall part cs.

(** What FindFirstFileW is asked and answers, in UTF-16. *)
Definition answers (find : list N -> option (list N)) (long : list N -> option (list N)) : Prop :=
  (forall p, good_text p -> ~ In 0 p -> find (text enc16 p) = option_map (text enc16) (long p)) /\ (forall p n, long p = Some n -> part n).

Lemma rooted_parts cs : rooted (wrender cs).
Proof. destruct cs as [|c cs]; [left; reflexivity|right]. eexists. reflexivity. Qed.

Lemma wrender_len cs : (length cs <= length (wrender cs))%nat.
Proof. induction cs as [|c cs IH]; [apply le_n|]. change (wrender (c :: cs)) with ((92 :: c) ++ wrender cs). rewrite app_length. cbn [length]. lia. Qed.

(** The part before the loop. *)
Lemma real_start cap find there gw sgn vol g2 g3 result name v cs : names sgn name v cs ->
  length g2 = cap -> length g3 = cap -> (length (text enc8 v ++ wrender (map (text enc8) cs)) < cap)%nat ->
  exists q n, (length cs <= n)%nat /\ settled v /\
  WRealpath cap find there gw sgn vol g2 g3 result name =
  let s := text enc8 v ++ wrender (map (text enc8) cs) in
  let* o := real_loop cap find gw n (s ++ q) (length s) (length (text enc8 v)) (text enc8 v ++ skipn (length (text enc8 v)) g3) (length (text enc8 v)) in
  match o with
  | None => Ok (result, false)
  | Some (f3, x2) =>
      let* f3 := wr f3 x2 0 in
      if (length result <? S x2)%nat then Ok (result, false)
      else
        let* t := slice f3 0 (S x2) in
        let* result := blit result 0 t in
        let* r := cstr result in
        Ok (result, there r)
  end.
Proof.
  intros (W & C & A & V & G & Z & F) L2 L3 L. set (s := text enc8 v ++ wrender (map (text enc8) cs)) in *. destruct (volume_facts _ V) as (Sv & Hv & Bv & Pv).
  assert (NV : ~ begins_with p_vol (canon (win name))) by (destruct A as (_ & r & Fm & _); exact (volume_form _ _ _ r V Fm)).
  destruct (accepted_text sgn vol g2 name s A W C NV ltac:(lia)) as (E & Nz & Ln).
  destruct (Pv _ (rooted_parts (map (text enc8) cs))) as [P1 P2]. fold s in P1.
  exists (0 :: skipn (S (length s)) g2), (length s). split; [|split].
  - unfold s. rewrite app_length. pose proof (wrender_len (map (text enc8) cs)) as X. rewrite map_length in X. lia.
  - split; [intros ->; apply Hv; reflexivity|split; assumption].
  - unfold WRealpath. rewrite E. cbn [bind negb]. rewrite cstr_app by exact Nz. cbn [bind].
    replace (starts false s_uni s) with true by (symmetry; apply starts_cs; destruct Bv as [x Ex]; unfold s; rewrite Ex; eexists; rewrite <- app_assoc; reflexivity). cbn [negb].
    rewrite P1. replace (firstn (length (text enc8 v)) s) with (text enc8 v) by (unfold s; rewrite firstn_app, firstn_all, Nat.sub_diag; cbn [firstn]; rewrite app_nil_r; reflexivity).
    unfold s in L. rewrite app_length in L. rewrite blit_in by lia. reflexivity.
Qed.

Lemma real_end (there : bytes -> bool) result t z : ~ In 0 t -> (0 < length z)%nat ->
  (let* f3 := wr (t ++ z) (length t) 0 in
   if (length result <? S (length t))%nat then Ok (result, false)
   else
     let* t := slice f3 0 (S (length t)) in
     let* result := blit result 0 t in
     let* r := cstr result in
     Ok (result, there r)) =
  if (length result <? S (length t))%nat then Ok (result, false) else Ok (t ++ 0 :: skipn (S (length t)) result, there t).
Proof.
  intros Z L. destruct z as [|c z]; [cbn in L; lia|]. rewrite wr_mid. cbn [bind]. destruct (Nat.ltb_spec (length result) (S (length t))) as [H|H]; [reflexivity|].
  rewrite slice_in by (rewrite app_length; cbn [length]; lia). cbn [bind skipn].
  assert (Ef : firstn (S (length t)) (t ++ 0 :: z) = t ++ [0]) by (rewrite firstn_app, firstn_all2 by lia; replace (S (length t) - length t)%nat with 1%nat by lia; reflexivity).
  rewrite Ef. rewrite blit_in by (rewrite app_length; cbn [length]; lia). cbn [bind firstn app]. rewrite app_length, <- app_assoc. cbn [length app]. rewrite Nat.add_1_r.
  change (0 + S (length t))%nat with (S (length t)). rewrite cstr_at by exact Z. reflexivity.
Qed.

Lemma within_fits long most : forall cs acc, (length (text enc8 acc) <= most)%nat -> stays_within long most acc cs -> (length (text enc8 (long_path long acc cs)) <= most)%nat.
Proof. induction cs as [|c cs IH]; intros acc L W; [exact L|]. cbn [stays_within long_path] in *. apply IH; apply W. Qed.

(** C102.  Long names. *)

(** As long as no path on the way has more than [cap] - 1 bytes, every component that exists is
    replaced by the name it is stored under, and the rest stays as given.  If that is too long for
    the caller's buffer then the buffer stays as it is, and false is returned. *)
Theorem C102_long : forall cap find there gw long sgn vol g2 g3 result name v cs, names sgn name v cs -> answers find long ->
  length gw = cap -> length g2 = cap -> length g3 = cap -> (length (text enc8 v ++ wrender (map (text enc8) cs)) < cap)%nat -> stays_within long (cap - 1) v cs ->
  let want := text enc8 (long_path long v cs) in
  ((length want < length result)%nat -> WRealpath cap find there gw sgn vol g2 g3 result name = Ok (want ++ 0 :: skipn (S (length want)) result, there want)) /\
  ((length result <= length want)%nat -> WRealpath cap find there gw sgn vol g2 g3 result name = Ok (result, false)).
Proof.
  intros cap find there gw long sgn vol g2 g3 result name v cs N (Hf & Hl) Lw L2 L3 L W want.
  destruct (real_start cap find there gw sgn vol g2 g3 result name v cs N L2 L3 L) as (q & n & Ln & Sv & E). cbv zeta in E. rewrite E. clear E.
  destruct N as (_ & _ & _ & _ & _ & _ & F). rewrite app_length in L.
  destruct (loop_ok cap find gw Lw long Hf Hl cs (text enc8 v) [] q v (skipn (length (text enc8 v)) g3) n F eq_refl Sv ltac:(rewrite skipn_length; lia) W Ln) as (z & Lz & Sl & E).
  rewrite !app_nil_r in E. cbn [app] in E. rewrite <- app_assoc, E. clear E. fold want in Lz |- *.
  pose proof (within_fits long (cap - 1) cs v ltac:(lia) W) as Lt. fold want in Lt.
  assert (El : forall m f x, real_loop cap find gw m f (length (text enc8 v ++ wrender (map (text enc8) cs))) (length (text enc8 v ++ wrender (map (text enc8) cs))) x (length want) = Ok (Some (x, length want))).
  { intros m f x. destruct m; cbn [real_loop]; rewrite Nat.leb_refl; reflexivity. }
  rewrite El. cbn [bind]. assert (Zw : ~ In 0 want) by (apply text8_no0; apply Sl).
  pose proof (real_end there result want z Zw ltac:(lia)) as R. match goal with |- (_ -> ?X = _) /\ _ => assert (RX : X = _) by exact R; rewrite RX end.
  split; intro H; destruct (Nat.ltb_spec (length result) (S (length want))); try reflexivity; lia.
Qed.
Print Assumptions C102_long.

(** If a component as given no longer fits behind the long names found so far then the caller's
    buffer stays as it is, and false is returned. *)
Theorem C102_given : forall cap find there gw long sgn vol g2 g3 result name v cs c r, names sgn name v (cs ++ c :: r) -> answers find long ->
  length gw = cap -> length g2 = cap -> length g3 = cap -> (length (text enc8 v ++ wrender (map (text enc8) (cs ++ c :: r))) < cap)%nat -> stays_within long (cap - 1) v cs ->
  (cap <= length (text enc8 (long_path long v cs ++ 92%N :: c)))%nat ->
  WRealpath cap find there gw sgn vol g2 g3 result name = Ok (result, false).
Proof.
  intros cap find there gw long sgn vol g2 g3 result name v cs c r N (Hf & Hl) Lw L2 L3 L W H.
  destruct (real_start cap find there gw sgn vol g2 g3 result name v (cs ++ c :: r) N L2 L3 L) as (q & n & Ln & Sv & E). cbv zeta in E. rewrite E. clear E.
  destruct N as (_ & _ & _ & _ & _ & _ & F). apply Forall_app in F. destruct F as [F Fc]. rewrite app_length in L, Ln. cbn [length] in Ln.
  assert (Ew : wrender (map (text enc8) (cs ++ c :: r)) = wrender (map (text enc8) cs) ++ 92 :: text enc8 c ++ wrender (map (text enc8) r)) by (unfold wrender; rewrite map_app, flat_map_app; reflexivity).
  rewrite Ew in *. set (R := 92 :: text enc8 c ++ wrender (map (text enc8) r)).
  destruct (loop_ok cap find gw Lw long Hf Hl cs (text enc8 v) R q v (skipn (length (text enc8 v)) g3) n F eq_refl Sv ltac:(rewrite skipn_length; lia) W ltac:(lia)) as (z & Lz & Sl & E).
  rewrite <- !app_assoc, E. clear E. destruct (n - length cs)%nat as [|m] eqn:Em; [lia|]. rewrite !(app_assoc (text enc8 v)). unfold R. cbn [app]. rewrite <- (app_assoc (text enc8 c)).
  rewrite (too_long cap find gw) by (exact (Forall_inv Fc) || exact Lz || lia). reflexivity.
Qed.
Print Assumptions C102_given.

(** But if the last component fits as given, and not under the name it is stored under, then that
    name is cut where the local array ends, and the terminator is written behind the array. *)
Theorem C102_refuted : forall cap find there gw long sgn vol g2 g3 result name v cs c n, names sgn name v (cs ++ [c]) -> answers find long ->
  length gw = cap -> length g2 = cap -> length g3 = cap -> (length (text enc8 v ++ wrender (map (text enc8) (cs ++ [c]))) < cap)%nat -> stays_within long (cap - 1) v cs ->
  (length (text enc8 (long_path long v cs ++ 92%N :: c)) < cap)%nat ->
  long (long_path long v cs ++ 92 :: c) = Some n -> Forall (fun x => 0 < x < 128) n -> (cap <= length (text enc8 (long_path long v cs)) + 1 + length n)%nat ->
  WRealpath cap find there gw sgn vol g2 g3 result name = UB.
Proof.
  intros cap find there gw long sgn vol g2 g3 result name v cs c nm N (Hf & Hl) Lw L2 L3 L W H Hn As Lg.
  destruct (real_start cap find there gw sgn vol g2 g3 result name v (cs ++ [c]) N L2 L3 L) as (q & n & Ln & Sv & E). cbv zeta in E. rewrite E. clear E.
  destruct N as (_ & _ & _ & _ & _ & _ & F). apply Forall_app in F. destruct F as [F Fc]. rewrite app_length in L, Ln. cbn [length] in Ln.
  assert (Ew : wrender (map (text enc8) (cs ++ [c])) = wrender (map (text enc8) cs) ++ 92 :: text enc8 c ++ []) by (unfold wrender; rewrite map_app, flat_map_app; reflexivity).
  rewrite Ew in *. set (R := 92 :: text enc8 c ++ []).
  destruct (loop_ok cap find gw Lw long Hf Hl cs (text enc8 v) R q v (skipn (length (text enc8 v)) g3) n F eq_refl Sv ltac:(rewrite skipn_length; lia) W ltac:(lia)) as (z & Lz & Sl & E).
  rewrite <- !app_assoc, E. clear E. destruct (n - length cs)%nat as [|m] eqn:Em; [lia|]. rewrite !(app_assoc (text enc8 v)). unfold R. cbn [app]. rewrite <- (app_assoc (text enc8 c)).
  destruct (last_grows cap find gw Lw long Hf (text enc8 v ++ wrender (map (text enc8) cs)) c q (long_path long v cs) z m nm Sl (Forall_inv Fc) Lz ltac:(lia) Hn As Lg) as (f3 & L4 & E).
  rewrite E. cbn [bind]. unfold wr. destruct (Nat.ltb_spec cap (length f3)); [lia|reflexivity].
Qed.
Print Assumptions C102_refuted.

(** c:/PROGRA~1/x, in arrays of 40 bytes; then in arrays of 20 and 21, when c:/PROGRA~1 is asked for *)
Definition stores (w : list N) : option (list N) := if beq w (chars "\\?\C:\PROGRA~1") then Some (chars "Program Files") else None.
Example C102_ex :
  let ask cap name size := WRealpath cap stores (fun _ => true) (repeat 7 cap) true none (repeat 7 cap) (repeat 7 cap) (repeat 9 size) (chars name) in
  ask 40%nat "c:/PROGRA~1/x"%string 24%nat = Ok (chars "\\?\C:\Program Files\x" ++ [0; 9], true) /\
  ask 40%nat "c:/PROGRA~1/x"%string 22%nat = Ok (repeat 9 22, false) /\
  ask 21%nat "c:/PROGRA~1"%string 24%nat = Ok (chars "\\?\C:\Program Files" ++ [0; 9; 9; 9], true) /\
  ask 20%nat "c:/PROGRA~1"%string 24%nat = UB.
Proof. vm_compute. repeat split; reflexivity. Qed.
