(** C05-C10: the JSON serializer. *)
From Verif Require Import Base S_Numeral S_Json M_Json P_Json.
Open Scope N_scope.

(** ** C05: memory safety.  Any write outside the buffer, read of an unset mode or arithmetic
    overflow makes the model's result [UB]. *)
Theorem C05_in_bounds :
  forall esc ksp vsp maxdepth junk b acts,
  (1 <= maxdepth)%nat -> b <> [] -> good_program esc acts ->
  exists s0 log out s buf,
    Serializer esc ksp vsp maxdepth junk = Ok s0 /\ run (NewBuffer b :: acts) s0 [] [] = Ok (log, out, s)
    /\ s_buf s = Some buf /\ (s_pos s <= length buf - 1)%nat /\ (1 <= length buf)%nat.
Proof.
  intros esc ksp vsp maxdepth junk b acts Hd Hb Hg.
  destruct (ser_rep esc ksp vsp maxdepth junk b Hd Hb) as (s0 & E0 & _).
  destruct (reach esc ksp vsp maxdepth junk b acts s0 Hd Hb Hg E0) as (log & out & s & st & D & t & E & R & _).
  destruct R as (R1 & R2 & R3 & R4 & _).
  exists s0, log, out, s, (D ++ t). split; [exact E0|]. split; [exact E|]. split; [exact R1|].
  rewrite app_length, R2. destruct t; [congruence|]. cbn [length]. lia.
Qed.
Print Assumptions C05_in_bounds.

(** The overload of AppendStr with an explicit size is not safe: its size computation looks at
    the first character only.  An 8-byte buffer and the letter a followed by three quotes are enough. *)
Theorem C05_sized_append_refuted :
  exists b v, b <> [] /\ Forall (fun c => 32 <= c) v /\
  exists s0, Serializer false [58] [44] 16 RootFirst = Ok s0 /\
  run [NewBuffer b; Call (CStrN None (Some v))] s0 [] [] = UB.
Proof.
  exists (repeat 0 8), [97; 34; 34; 34]. split; [discriminate|]. split; [repeat constructor; lia|].
  eexists. split; [reflexivity|]. vm_compute. reflexivity.
Qed.
Print Assumptions C05_sized_append_refuted.

(** Nor is AppendInt of the most negative number (it is negated). *)
Theorem C05_int64_min_refuted :
  exists z : Z, (- 2^63 <= z < 2^63)%Z /\
  exists s0, Serializer false [58] [44] 16 RootFirst = Ok s0 /\
  run [NewBuffer (repeat 0 100); Call (CInt None z)] s0 [] [] = UB.
Proof.
  exists (- 2^63)%Z. split; [lia|]. eexists. split; [reflexivity|]. vm_compute. reflexivity.
Qed.
Print Assumptions C05_int64_min_refuted.

(** An object with the members k (the array 1, -2, x newline) and e (an empty object), in a 10-byte buffer with two flushes, the second provoked by a
    refused call. *)
Definition ex_acts : list action :=
  [Call (CStartObject None); Call (CStartArray (Some [107])); Flush;
   Call (CUInt None 1); Call (CInt None (-2)); Call (CStr None (Some [120; 10])); Flush;
   Call (CStr None (Some [120; 10])); Call CEndArray; NewBuffer (repeat 9 20);
   Call (CStartObject (Some [101])); Call CFinish].
Definition ex_log : list (call * bool) :=
  [(CStartObject None, true); (CStartArray (Some [107]), true);
   (CUInt None 1, true); (CInt None (-2), true); (CStr None (Some [120; 10]), false);
   (CStr None (Some [120; 10]), true); (CEndArray, true); (CStartObject (Some [101]), true); (CFinish, true)].
(** The text expected. *)
Definition ex_text : bytes :=
  [123;34;107;34;58;91;49;44;45;50;44;34;120;92;110;34;93;44;34;101;34;58;123;125;125].

Example C05_example :
  exists s0 s, Serializer false [58] [44] 16 RootFirst = Ok s0 /\ good_program false ex_acts /\
  run (NewBuffer (repeat 9 10) :: ex_acts) s0 [] [] = Ok (ex_log, firstn 17 ex_text, s) /\
  taken s = skipn 17 ex_text.
Proof.
  eexists. eexists. split; [reflexivity|]. split; [|split; vm_compute; reflexivity].
  split; cbn; intros c H; repeat (destruct H as [H|H]; [inversion H; subst; cbn; try lia; try exact I; try discriminate|]); try contradiction.
Qed.

(** ** C06: a call that returns false changed nothing (Finish is treated in C10). *)
Theorem C06_failure_changes_nothing :
  forall esc ksp vsp maxdepth acts log out s c s',
  reached esc ksp vsp maxdepth acts log out s -> (argok esc c \/ exists k v, c = CStrN k v) -> c <> CFinish ->
  do_call c s = Ok (false, s') -> s' = s.
Proof.
  intros esc ksp vsp maxdepth acts log out s c s' H Ha Hc E.
  destruct (reached_rep _ _ _ _ _ _ _ _ H) as (st & D & t & R & _ & <- & _).
  destruct Ha as [Ha|(k & v & ->)]; [eapply fail_same; eauto|eapply fail_same_n; eauto].
Qed.
Print Assumptions C06_failure_changes_nothing.

Example C06_example :
  exists s, reached false [58] [44] 16 [Call (CStartArray None); Call (CNull None)]
              [(CStartArray None, true); (CNull None, true)] [] s /\
  do_call (CBool None true) s = Ok (false, s) /\ do_call (CNull (Some [97])) s = Ok (false, s) /\
  do_call CEndObject s = Ok (false, s).
Proof.
  eexists. split.
  - exists RootFirst. eexists. exists (repeat 9 10). split; [lia|]. split; [discriminate|].
    split; [|split; [reflexivity|vm_compute; reflexivity]].
    split; cbn; intros c H; repeat (destruct H as [H|H]; [inversion H; subst; cbn; exact I|]); contradiction.
  - vm_compute. auto.
Qed.

(** ** C07: what has been written is the JSON text of what the calls describe. *)
Theorem C07_document :
  forall esc ksp vsp maxdepth acts log out s,
  reached esc ksp vsp maxdepth acts log out s ->
  splitter 58 ksp -> splitter 44 vsp ->
  (forall c, In (Call c) acts -> faithful esc c) -> layout_ok acts ->
  exists st, history fresh log st /\
    (forall v, st = [(None, FRoot (Some v))] -> document v (out ++ taken s)).
Proof.
  intros esc ksp vsp maxdepth acts log out s H Hk Hv Hf HL.
  destruct (reached_rep _ _ _ _ _ _ _ _ H) as (st & D & t & R & HH & _ & _ & _ & _ & T).
  exists st. split; [exact HH|]. intros v ->. specialize (T Hk Hv Hf HL). cbn in T.
  rewrite (taken_rep _ _ _ _ R). exact T.
Qed.
Print Assumptions C07_document.

(** After a successful Finish there is exactly one root value (or nothing but white space if no
    value was ever accepted). *)
Theorem C07_finished_document :
  forall esc ksp vsp maxdepth acts log out s,
  reached esc ksp vsp maxdepth acts (log ++ [(CFinish, true)]) out s ->
  splitter 58 ksp -> splitter 44 vsp ->
  (forall c, In (Call c) acts -> faithful esc c) -> layout_ok acts ->
  exists root, history fresh (log ++ [(CFinish, true)]) [(None, FRoot root)] /\
    match root with Some v => document v (out ++ taken s) | None => ws (out ++ taken s) end.
Proof.
  intros esc ksp vsp maxdepth acts log out s H Hk Hv Hf HL.
  destruct (reached_rep _ _ _ _ _ _ _ _ H) as (st & D & t & R & HH & _ & _ & _ & _ & T).
  specialize (T Hk Hv Hf HL). rewrite (taken_rep _ _ _ _ R).
  assert (exists root, st = [(None, FRoot root)]) as (root & ->).
  { destruct (history_snoc_inv _ _ _ _ _ HH) as (st1 & _ & H1). inversion H1 as [|? ? st2 ? ? Hst Hn|?|?]; subst.
    inversion Hn; subst. cbn [step] in Hst. pose proof (close_all_length _ _ _ Hst) as L.
    destruct R as (_ & _ & _ & _ & (W & _)).
    destruct st as [|[k f] [|e r]]; [inversion W| |cbn [length] in L; lia].
    inversion W as [r|? ? ? W1]; subst; [eauto|inversion W1]. }
  exists root. split; [exact HH|]. destruct root; exact T.
Qed.
Print Assumptions C07_finished_document.

(** Without the conditions on arguments the text need not be JSON: snprintf writes "nan" for a
    number that is not one, and control characters are copied. *)
Lemma denotes_head v t : denotes v t -> exists c r, t = c :: r /\
  (c = 110 /\ t = [110;117;108;108] \/ c = 116 \/ c = 102 \/ c = 45 \/ (48 <= c <= 57) \/ (c = 34 /\ exists s, v = JStr s /\ literal s t) \/ c = 91 \/ c = 123).
Proof.
  intros H. destruct H.
  - eexists _, _. split; [reflexivity|]. auto.
  - eexists _, _. split; [reflexivity|]. auto.
  - eexists _, _. split; [reflexivity|]. auto.
  - destruct H as (ds & (Hne & Hf & _) & ->). destruct (z <? 0)%Z; cbn [app].
    + eexists _, _. split; [reflexivity|]. auto.
    + destruct ds as [|d ds]; [congruence|]. cbn [map]. eexists _, _. split; [reflexivity|]. do 4 right. left.
      pose proof (Forall_inv Hf) as Hd. cbn in Hd. unfold glyph.
      assert (G : forall n, (n < 10)%nat -> 48 <= nth n glyphs 0 <= 57).
      { intros n Hn. do 10 (destruct n as [|n]; [cbn; lia|]). lia. }
      apply G. lia.
  - destruct H as (m & i & f & e & -> & [->| ->] & Hi & _); cbn [app].
    + destruct Hi as [->|((Hne & Hf) & _)].
      * eexists _, _. split; [reflexivity|]. do 4 right. left. lia.
      * destruct i as [|d i]; [congruence|]. eexists _, _. split; [reflexivity|]. do 4 right. left. exact (Forall_inv Hf).
    + eexists _, _. split; [reflexivity|]. auto.
  - pose proof H as (u & -> & _). eexists _, _. split; [reflexivity|]. do 5 right. left. eauto.
  - eexists _, _. split; [reflexivity|]. auto 10.
  - eexists _, _. split; [reflexivity|]. auto 10.
  - eexists _, _. split; [reflexivity|]. auto 10.
  - eexists _, _. split; [reflexivity|]. auto 10.
Qed.

Theorem C07_any_argument_refuted :
  exists c1 c2, forall c, c = c1 \/ c = c2 ->
  argok false c /\
  exists s t, reached false [58] [44] 16 [Call c; Call CFinish] [(c, true); (CFinish, true)] [] s
    /\ taken s = t /\ ~ exists v, document v t.
Proof.
  exists (CDouble None [110; 97; 110]), (CStr None (Some [1])). intros c Hc.
  assert (Hg : good_program false [Call c; Call CFinish]).
  { split; cbn; intros x H; repeat (destruct H as [H|H]; [inversion H; subst; destruct Hc; subst; exact I|]); try contradiction. }
  assert (NW : forall (x : N) t a u b v, x :: t = a ++ u ++ b -> ws a -> denotes v u -> ~ wsc x -> a = []).
  { intros x t a u b v E Ha _ Hx. destruct a as [|y a]; auto. cbn in E. inversion E; subst. now destruct (Hx (Forall_inv Ha)). }
  destruct Hc as [->| ->]; (split; [exact I|]); eexists; eexists.
  - split; [|split; [reflexivity|]].
    + exists RootFirst. eexists. exists (repeat 9 100). split; [lia|]. split; [discriminate|]. split; [exact Hg|].
      split; [reflexivity|]. vm_compute. reflexivity.
    + vm_compute taken. intros (v & a & u & b & E & Ha & Hb & Hd).
      assert (a = []) as -> by (eapply NW; eauto; unfold wsc; lia). cbn [app] in E.
      destruct (denotes_head _ _ Hd) as (c & r & -> & Hc). cbn [app] in E. inversion E as [[E1 E2]]. subst c.
      destruct Hc as [[_ X]|[X|[X|[X|[X|[[X _]|[X|X]]]]]]]; try lia. inversion X. subst r. cbn in E2. congruence.
  - split; [|split; [reflexivity|]].
    + exists RootFirst. eexists. exists (repeat 9 100). split; [lia|]. split; [discriminate|]. split; [exact Hg|].
      split; [reflexivity|]. vm_compute. reflexivity.
    + vm_compute taken. intros (v & a & u & b & E & Ha & Hb & Hd).
      assert (a = []) as -> by (eapply NW; eauto; unfold wsc; lia). cbn [app] in E.
      destruct (denotes_head _ _ Hd) as (c & r & -> & Hc). cbn [app] in E. inversion E as [[E1 E2]]. subst c.
      destruct Hc as [[X _]|[X|[X|[X|[X|[[_ (s & -> & L)]|[X|X]]]]]]]; try lia.
      destruct L as (w & Ew & Hw). inversion Ew; subst r. destruct w as [|x w]; cbn in E2; inversion E2; subst x.
      cbn in Hw. discriminate.
Qed.
Print Assumptions C07_any_argument_refuted.

(** The value of the example. *)
Definition ex_value : jv :=
  JObj [([107], JArr [JInt 1; JInt (-2); JStr [120; 10]]); ([101], JObj [])].
Example C07_example :
  exists s, reached false [58] [44] 16 ex_acts ex_log (firstn 17 ex_text) s /\ firstn 17 ex_text ++ taken s = ex_text
  /\ splitter 58 [58] /\ splitter 44 [44] /\ (forall c, In (Call c) ex_acts -> faithful false c) /\ layout_ok ex_acts
  /\ history fresh ex_log [(None, FRoot (Some ex_value))].
Proof.
  destruct C05_example as (s0 & s & E0 & Hg & E & T).
  exists s. split; [exists RootFirst, s0, (repeat 9 10); split; [lia|]; split; [discriminate|]; auto|].
  split; [rewrite T; reflexivity|].
  split; [exists [], []; repeat split; constructor|]. split; [exists [], []; repeat split; constructor|].
  split.
  { cbn. intros c H. repeat (destruct H as [H|H]; [inversion H; subst; cbn; unfold clean; repeat split; repeat constructor; lia|]). contradiction. }
  split.
  { intros _ t H. cbn in H. repeat (destruct H as [H|H]; [discriminate|]). contradiction. }
  unfold ex_log. repeat (first [eapply h_ok; [reflexivity|] | eapply h_no; [discriminate|]]). constructor.
Qed.

(** ** C08: escaping round trip. *)
Theorem C08_roundtrip :
  forall esc ksp vsp maxdepth acts log out s k v s',
  reached esc ksp vsp maxdepth acts log out s -> clean esc v ->
  do_call (CStr k (Some v)) s = Ok (true, s') ->
  exists st pre lit, history fresh log st /\ taken s' = taken s ++ pre ++ lit /\
    match st with
    | (_, FStr _) :: _ => pre = [] /\ unescape lit = Some v
    | _ => literal v lit
    end.
Proof.
  intros esc ksp vsp maxdepth acts log out s k v s' H Hv E.
  destruct (reached_rep _ _ _ _ _ _ _ _ H) as (st & D & t & R & HH & <- & _ & _ & _ & _).
  destruct (abs_ne s st) as (k0 & f & r & ->); [apply R|].
  destruct (call_outcome (CStr k (Some v)) s k0 f r D t R I ltac:(discriminate)) as (ok & s1 & E1 & X & _).
  rewrite E in E1. inversion E1; subst ok s1. destruct (X eq_refl) as (_ & st' & u & t' & _ & He & R').
  rewrite (taken_rep _ _ _ _ R), (taken_rep _ _ _ _ R'). cbn [emits] in He.
  exists ((k0, f) :: r).
  destruct f as [v0|fs|vs|w]; subst u.
  4: { exists [], (escs (s_esc s) v). split; [exact HH|]. split; [reflexivity|]. split; [reflexivity|]. now apply unescape_escs. }
  all: eexists _, _; split; [exact HH|]; split; [reflexivity|]; now apply literal_escs.
Qed.
Print Assumptions C08_roundtrip.

(** With slashes not escaped (the default) a slash disappears. *)
Theorem C08_slash_refuted :
  exists v s lit, reached false [58] [44] 16 [Call (CStr None (Some v))] [(CStr None (Some v), true)] [] s
  /\ Forall (fun c => 32 <= c < 127) v /\ taken s = lit /\ literal [97; 98] lit /\ v <> [97; 98] /\ ~ literal v lit.
Proof.
  exists [97; 47; 98]. eexists. exists [34; 97; 98; 34]. split.
  - exists RootFirst. eexists. exists (repeat 9 100). split; [lia|]. split; [discriminate|].
    split; [|split; [reflexivity|vm_compute; reflexivity]].
    split; cbn; intros x H; repeat (destruct H as [H|H]; [inversion H; subst; exact I|]); contradiction.
  - split; [repeat constructor; lia|]. split; [reflexivity|].
    split; [exists [97; 98]; split; reflexivity|]. split; [discriminate|].
    intros (u & E & Hu). destruct u as [|a [|b [|c u]]]; cbn in E; inversion E; subst; try discriminate.
Qed.
Print Assumptions C08_slash_refuted.

Example C08_example :
  exists s s', reached true [58] [44] 16 [Call (CStartArray None)] [(CStartArray None, true)] [] s
  /\ clean true [97; 47; 34; 9; 228] /\ do_call (CStr None (Some [97; 47; 34; 9; 228])) s = Ok (true, s')
  /\ taken s' = [91; 34; 97; 92; 47; 92; 34; 92; 116; 228; 34].
Proof.
  eexists. eexists. split.
  - exists RootFirst. eexists. exists (repeat 9 100). split; [lia|]. split; [discriminate|].
    split; [|split; [reflexivity|vm_compute; reflexivity]].
    split; cbn; intros x H; repeat (destruct H as [H|H]; [inversion H; subst; exact I|]); contradiction.
  - split; [repeat constructor; lia|]. split; vm_compute; reflexivity.
Qed.

(** ** C09: exactly which calls are accepted: those that fit the structure built so far, the depth
    limit and the room left. *)
Theorem C09_accept_exact :
  forall esc ksp vsp maxdepth acts log out s,
  reached esc ksp vsp maxdepth acts log out s ->
  exists st, history fresh log st /\ (1 <= length st <= maxdepth)%nat /\
  forall c, argok esc c ->
  exists ok s', do_call c s = Ok (ok, s') /\
    (ok = true <-> step c st <> None /\ (opens c = true -> length st < maxdepth)%nat
        /\ exists n, cost esc ksp vsp c st n /\ (length (taken s) + n <= s_size s)%nat).
Proof.
  intros esc ksp vsp maxdepth acts log out s H.
  destruct (reached_rep _ _ _ _ _ _ _ _ H) as (st & D & t & R & HH & C1 & C2 & C3 & C4 & _).
  exists st. split; [exact HH|]. split; [rewrite <- C4; destruct (rep_depth _ _ _ _ R); lia|].
  intros c Ha. rewrite <- C1 in Ha. destruct (accept_exact s st D t c R Ha) as (ok & s' & E & X).
  exists ok, s'. split; [exact E|]. rewrite (taken_rep _ _ _ _ R), X, C1, C2, C3, C4. reflexivity.
Qed.
Print Assumptions C09_accept_exact.

(** In words: keys exactly in objects, one root value, End calls match. *)
Theorem C09_structure_rules :
  forall esc ksp vsp maxdepth acts log out s,
  reached esc ksp vsp maxdepth acts log out s ->
  exists st k0 f r, history fresh log st /\ st = (k0, f) :: r /\
  (forall c k s', (c = CNull k \/ c = CStartObject k \/ c = CStartArray k \/ c = CStartStr k) ->
     do_call c s = Ok (true, s') ->
     match f with FObj _ => k <> None | FArr _ => k = None | FRoot v => v = None /\ k = None | FStr _ => False end) /\
  (forall s', do_call CEndObject s = Ok (true, s') -> exists fs, f = FObj fs) /\
  (forall s', do_call CEndArray s = Ok (true, s') -> exists vs, f = FArr vs) /\
  (forall s', do_call CEndStr s = Ok (true, s') -> exists w, f = FStr w).
Proof.
  intros esc ksp vsp maxdepth acts log out s H.
  destruct (C09_accept_exact _ _ _ _ _ _ _ _ H) as (st & HH & Hlen & Hex).
  destruct st as [|[k0 f] r]; [cbn in Hlen; lia|].
  exists ((k0, f) :: r), k0, f, r. split; [exact HH|]. split; [reflexivity|].
  assert (Hst : forall c s', argok esc c -> do_call c s = Ok (true, s') -> step c ((k0, f) :: r) <> None).
  { intros c s' Ha E. destruct (Hex c Ha) as (ok & s1 & E1 & X). rewrite E in E1. inversion E1; subst. now apply X. }
  split; [|split; [|split]].
  - intros c k s' Hc E.
    assert (Hp : placed k JNull ((k0, f) :: r) <> None).
    { assert (Hst' := Hst c s'). destruct Hc as [->|[->|[->| ->]]]; specialize (Hst' I E); clear Hst; rename Hst' into Hst; cbn [step] in Hst; unfold opened in Hst;
      destruct (placed k JNull ((k0, f) :: r)); congruence. }
    destruct f as [[|]|fs|vs|w], k; cbn in Hp; try congruence; auto; discriminate.
  - intros s' E. specialize (Hst CEndObject _ I E). cbn [step] in Hst. destruct f; try congruence. eauto.
  - intros s' E. specialize (Hst CEndArray _ I E). cbn [step] in Hst. destruct f; try congruence. eauto.
  - intros s' E. specialize (Hst CEndStr _ I E). cbn [step] in Hst. destruct f; try congruence. eauto.
Qed.
Print Assumptions C09_structure_rules.

(** Depth limit 2: one scope can be opened, not two; the 5-byte room takes one null but not another. *)
Example C09_example :
  exists s s1, reached false [58] [44] 2 [] [] [] s /\ history fresh [] fresh /\
  do_call (CStartArray None) s = Ok (true, s1) /\
  do_call (CStartArray None) s1 = Ok (false, s1) /\ do_call (CNull (Some [97])) s1 = Ok (false, s1) /\
  do_call CEndStr s1 = Ok (false, s1) /\ cost false [58] [44] (CNull None) ((None, FArr []) :: fresh) 4 /\
  (exists s2, do_call (CNull None) s1 = Ok (true, s2) /\ do_call (CNull None) s2 = Ok (false, s2)).
Proof.
  eexists. eexists. split.
  - exists RootFirst. eexists. exists (repeat 9 7). split; [lia|]. split; [discriminate|].
    split; [split; cbn; intros x H; contradiction|]. split; [reflexivity|vm_compute; reflexivity].
  - split; [constructor|]. split; [vm_compute; reflexivity|]. split; [vm_compute; reflexivity|].
    split; [vm_compute; reflexivity|]. split; [vm_compute; reflexivity|]. split; [reflexivity|].
    eexists. split; vm_compute; reflexivity.
Qed.

(** ** C10: Finish. *)
Theorem C10_finish_exact :
  forall esc ksp vsp maxdepth acts log out s,
  reached esc ksp vsp maxdepth acts log out s ->
  exists st ok s', history fresh log st /\ Finish s = Ok (ok, s') /\
  (ok = true <-> (length (taken s) + (length st - 1) <= s_size s)%nat) /\
  (ok = true -> s_depth s' = 0%nat /\ taken s' = taken s ++ closing st /\
     (exists root, step CFinish st = Some [(None, FRoot root)]) /\
     (closing st <> [] -> exists buf, s_buf s' = Some buf /\ nth_error buf (s_pos s') = Some 0)) /\
  (ok = false -> length (taken s') = s_size s /\ exists n st', (n < length st - 1)%nat /\ close_all n st = Some st' /\
     taken s' = taken s ++ firstn n (closing st)).
Proof.
  intros esc ksp vsp maxdepth acts log out s H.
  destruct (reached_rep _ _ _ _ _ _ _ _ H) as (st & D & t & R & HH & _).
  destruct (Finish_ok s st D t R) as (ok & s' & n & st' & t' & E & C & A & R' & L & T & Z & O1 & O2).
  exists st, ok, s'. split; [exact HH|]. split; [exact E|].
  rewrite (taken_rep _ _ _ _ R), (taken_rep _ _ _ _ R').
  split; [exact (Finish_room _ _ _ _ _ _ R E)|].
  destruct (rep_depth _ _ _ _ R) as (_ & Hl).
  assert (W : wfst st) by apply R.
  assert (Cl : ctext (length st - 1) st = closing st) by (apply ctext_closing; [exact W|lia]).
  split.
  - intros Ho. specialize (O1 Ho). rewrite <- O1 in Cl.
    split. { destruct (rep_depth _ _ _ _ R') as (_ & Hl'). pose proof (close_all_length _ _ _ A). lia. }
    split; [now rewrite Cl|]. split.
    + cbn [step]. destruct (wfst_close_all (length st - 1) st W) as (r & Hr); [lia|]. eauto.
    + rewrite <- Cl. intros Hne. destruct T as (t'' & ->).
      { intros ->. now apply Hne. }
      destruct R' as (B & P & _). eexists. split; [exact B|]. rewrite P.
      rewrite nth_error_app2 by lia. now rewrite Nat.sub_diag.
  - intros Ho. destruct (O2 Ho) as (H1 & H2). split; [exact H2|].
    exists n, st'. split; [exact H1|]. split; [exact A|]. f_equal. rewrite <- Cl.
    clear - H1 W A L. revert st W A H1 L. induction n as [|n IH]; intros st W A H1 L; [reflexivity|].
    cbn [close_all] in A. destruct (closed st) as [st1|] eqn:Ec; [|discriminate].
    pose proof (closed_length _ _ Ec) as Hlen.
    destruct st as [|[k f] r]; [discriminate|]. cbn [length] in *.
    replace (S (length r) - 1)%nat with (S (length st1 - 1))%nat by lia.
    cbn [ctext] in *. rewrite Ec in *. cbn [firstn length] in *. f_equal. apply IH; auto; try lia.
    destruct r as [|[k1 g] r]; [cbn in *; lia|].
    destruct (closed_total _ _ _ _ _ W) as (v & g' & Hv & Hp & E'). rewrite Ec in E'. inversion E'; subst.
    inversion W; subst. eapply wfst_placed; eassumption.
Qed.
Print Assumptions C10_finish_exact.

(** An object, in it an array, in it an unfinished string: with room for everything, and with room for one closing symbol only. *)
Definition c10_acts : list action :=
  [Call (CStartObject None); Call (CStartArray (Some [97])); Call (CStartStr None); Call (CStr None (Some [120]))].
Definition c10_log : list (call * bool) :=
  [(CStartObject None, true); (CStartArray (Some [97]), true); (CStartStr None, true); (CStr None (Some [120]), true)].
Example C10_example :
  (exists s s', reached false [58] [44] 9 c10_acts c10_log [] s /\ Finish s = Ok (true, s') /\ taken s' = [123; 34; 97; 34; 58; 91; 34; 120; 34; 93; 125]) /\
  (exists s s', reached false [58] [44] 9 c10_acts c10_log [] s /\ Finish s = Ok (false, s') /\ taken s' = [123; 34; 97; 34; 58; 91; 34; 120; 34]).
Proof.
  assert (G : good_program false c10_acts).
  { split; cbn; intros x H; repeat (destruct H as [H|H]; [inversion H; subst; exact I|]); contradiction. }
  split; eexists; eexists; (split; [exists RootFirst; eexists|]).
  - exists (repeat 9 12). split; [lia|]. split; [discriminate|]. split; [exact G|]. split; [reflexivity|vm_compute; reflexivity].
  - split; vm_compute; reflexivity.
  - exists (repeat 9 10). split; [lia|]. split; [discriminate|]. split; [exact G|]. split; [reflexivity|vm_compute; reflexivity].
  - split; vm_compute; reflexivity.
Qed.
