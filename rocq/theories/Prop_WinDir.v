(** C88, C91, C92: directories on Windows. *)
From Coq Require Import String Ascii.
From Verif Require Import Base S_Utf8 M_Utf8 P_Utf8 S_Path S_Tree M_Path P_MixedVar P_Path P_Dir S_WinPath M_WinPath P_WinPath Prop_WinPath P_WinAbs Prop_WinAbs S_WinTree M_WinDir P_WinDir.
Open Scope N_scope.
Open Scope list_scope.
Notation length := List.length.

(** The absolute name [abs] in UTF-8 is the full name of [p] on the volume [v] in UTF-16. *)
Definition stands_for (v : bytes) (abs : bytes) (p : path) : Prop :=
  exists cps, good_text cps /\ ~ In 0 cps /\ abs = text enc8 cps /\ text enc16 cps = full v p.

Lemma stands_nz v abs p : stands_for v abs p -> ~ In 0 v /\ ~ In 0 (full v p).
Proof.
  intros (cps & _ & Z & _ & E). pose proof (text16_nz cps Z) as X. rewrite E in X. split; [|exact X]. intro Y. apply X. unfold full. apply in_or_app. left. exact Y.
Qed.

Lemma wide_at v p sgn vol cwd g2 g3 gr gw name r abs : WGetAbsoluteFilename sgn vol g2 g3 cwd gr None name false = Ok (r, true) -> cstr r = Ok abs ->
  stands_for v abs p -> (length (full v p) + 1 <= length gw)%nat ->
  wide_name sgn vol cwd g2 g3 gr gw name = Ok (Some (full v p ++ 0 :: skipn (length (full v p) + 1) gw, (length (full v p) + 1)%nat)).
Proof.
  intros E Er (cps & G & Z & -> & E16) L. unfold wide_name. rewrite E. cbn [bind negb]. rewrite Er. cbn [bind].
  rewrite from8_all by (assumption || (rewrite E16; exact L)). cbn [bind]. rewrite E16. reflexivity.
Qed.

(** ** C88 *)

(** A recursive Rmdir of a directory removes exactly what can be removed: the entries under it
    which are not read-only, whose full names have at most 8190 units, and which do not hold an
    entry that cannot be removed.  Links are removed, not followed; all else stays as it was.  It
    returns true exactly if the directory itself is gone. *)
Theorem C88_removes : forall v ro dl sgn vol cwd g2 g3 gr gw name r abs p t D fuel,
  WGetAbsoluteFilename sgn vol g2 g3 cwd gr None name false = Ok (r, true) -> cstr r = Ok abs -> stands_for v abs p ->
  length gw = N.to_nat 8192 -> (length (full v p) <= N.to_nat 8190)%nat ->
  wsound t -> (forall q k, In (q, k) t -> (length q <= D)%nat) -> (D < fuel)%nat -> p <> [] -> lookup t p = Some KDir ->
  exists t' ok, WRmdir v ro dl sgn vol cwd g2 g3 gr gw fuel t name true = Ok (t', ok) /\
    (forall q, under p q -> clearable v ro t q -> lookup t' q = None) /\
    (forall q, ~ (under p q /\ clearable v ro t q) -> lookup t' q = lookup t q) /\
    (ok = true <-> lookup t' p = None).
Proof.
  intros v ro dl sgn vol cwd g2 g3 gr gw name r abs p t D fuel E Er St Lg Lp [K Pa] HD Hf Hp Kp.
  destruct (stands_nz v abs p St) as [Zv Zp]. unfold WRmdir. rewrite (wide_at v p sgn vol cwd g2 g3 gr gw name r abs E Er St) by lia. cbn [bind].
  rewrite cstr_at by exact Zp. cbn [bind].
  assert (F : Forall wname p) by (apply (name_at t p K); congruence).
  assert (Pl : forall t0, road t0 p -> wplace_of v t0 (full v p) = Some p).
  { intros t0 R. apply wplace_full; [exact F|]. intros a b -> Hb. exact (R a b eq_refl). }
  unfold GetFileAttributesW. rewrite Pl by (apply wroad; assumption). rewrite Kp. unfold reparse_attr. rewrite Kp.
  destruct (Nat.eqb_spec (length (full v p) + 1) 0) as [X|_]; [lia|]. replace (length (full v p) + 1 - 1)%nat with (length (full v p)) by lia.
  destruct (rec_handles v ro dl Zv D fuel t p (skipn (length (full v p) + 1) gw) Pa K HD) as (t1 & x1 & R1 & R2 & R3 & R4);
    [lia|exact Kp|rewrite skipn_length; lia|].
  rewrite R1. cbn [bind]. rewrite cstr_at by exact Zp. cbn [bind].
  assert (Pa1 : parents t1).
  { apply (eff_parents v ro (below p) t t1 Pa); [|exact R3]. intros q c (d & s & ->). exists d, (s ++ [c]). rewrite <- app_assoc. reflexivity. }
  assert (Kp1 : lookup t1 p = Some KDir) by (rewrite (proj2 R3); [exact Kp|]; intros [B _]; exact (below_self p B)).
  pose proof (remove_dir_at v ro dl t1 p Hp (Pl t1 (wroad t1 p Pa1 Kp1)) Kp1) as Rm.
  destruct (eff_dir v ro t p t1 (fst (RemoveDirectoryW v ro dl t1 (full v p))) Pa Hp Lp R3 Kp Rm) as [G1 G2].
  exists (fst (RemoveDirectoryW v ro dl t1 (full v p))), (snd (RemoveDirectoryW v ro dl t1 (full v p))).
  split; [destruct (RemoveDirectoryW v ro dl t1 (full v p)); reflexivity|]. split; [exact G1|]. split; [exact G2|].
  rewrite Rm. unfold RemoveDirectoryW. rewrite (Pl t1 (wroad t1 p Pa1 Kp1)). destruct p as [|c p]; [congruence|]. rewrite Kp1.
  destruct (_ || _) eqn:B; cbn [snd].
  - rewrite Kp1. split; discriminate.
  - rewrite lookup_del by exact Hp. destruct (path_dec (c :: p) (c :: p)); [split; reflexivity|congruence].
Qed.
Print Assumptions C88_removes.

(** So if nothing under it is read-only and every full name fits, it is gone with all it holds. *)
Theorem C88_all : forall v ro dl sgn vol cwd g2 g3 gr gw name r abs p t D fuel,
  WGetAbsoluteFilename sgn vol g2 g3 cwd gr None name false = Ok (r, true) -> cstr r = Ok abs -> stands_for v abs p ->
  length gw = N.to_nat 8192 -> wsound t -> (forall q k, In (q, k) t -> (length q <= D)%nat) -> (D < fuel)%nat -> p <> [] -> lookup t p = Some KDir ->
  (forall q, under p q -> lookup t q <> None -> ro q = false /\ (length (full v q) <= N.to_nat 8190)%nat) ->
  exists t', WRmdir v ro dl sgn vol cwd g2 g3 gr gw fuel t name true = Ok (t', true) /\
    (forall q, under p q -> lookup t' q = None) /\ (forall q, ~ under p q -> lookup t' q = lookup t q).
Proof.
  intros v ro dl sgn vol cwd g2 g3 gr gw name r abs p t D fuel E Er St Lg So HD Hf Hp Kp All.
  destruct (All p (under_self p) ltac:(congruence)) as [_ Lp].
  destruct (C88_removes v ro dl sgn vol cwd g2 g3 gr gw name r abs p t D fuel E Er St Lg Lp So HD Hf Hp Kp) as (t' & ok & R & A & B & C).
  assert (Cl : forall q, under p q -> lookup t q <> None -> clearable v ro t q).
  { intros q U L. split; [exact L|]. intros x Ux Lx. apply All; [|exact Lx]. destruct U as [y ->]. destruct Ux as [z ->]. exists (y ++ z). apply app_assoc_reverse. }
  assert (G : forall q, under p q -> lookup t' q = None).
  { intros q U. destruct (lookup t q) as [k|] eqn:L; [apply A; [exact U|apply Cl; [exact U|congruence]]|]. rewrite B; [exact L|]. intros [_ [X _]]. exact (X L). }
  exists t'. split; [|split; [exact G|intros q U; apply B; intros [X _]; exact (U X)]].
  rewrite R. do 2 f_equal. apply C. apply G, under_self.
Qed.
Print Assumptions C88_all.

(** A directory link is not followed: it is removed itself, and nothing else. *)
Theorem C88_link : forall v ro dl sgn vol cwd g2 g3 gr gw name r abs p t fuel g recursive,
  WGetAbsoluteFilename sgn vol g2 g3 cwd gr None name false = Ok (r, true) -> cstr r = Ok abs -> stands_for v abs p ->
  length gw = N.to_nat 8192 -> (length (full v p) < N.to_nat 8192)%nat ->
  wsound t -> lookup t p = Some (KLink g) -> dl p = true -> ro p = false ->
  exists t', WRmdir v ro dl sgn vol cwd g2 g3 gr gw fuel t name recursive = Ok (t', true) /\
    lookup t' p = None /\ forall q, q <> p -> lookup t' q = lookup t q.
Proof.
  intros v ro dl sgn vol cwd g2 g3 gr gw name r abs p t fuel g recursive E Er St Lg Lp [K Pa] Kp Dp Rp.
  destruct (stands_nz v abs p St) as [Zv Zp]. unfold WRmdir. rewrite (wide_at v p sgn vol cwd g2 g3 gr gw name r abs E Er St) by lia. cbn [bind].
  rewrite cstr_at by exact Zp. cbn [bind].
  assert (Hp : p <> []) by (intros ->; discriminate).
  assert (F : Forall wname p) by (apply (name_at t p K); congruence).
  assert (Pl : wplace_of v t (full v p) = Some p) by (apply wplace_full; [exact F|]; intros a b -> Hb; apply (parent_of t a Pa b); [congruence|exact Hb]).
  unfold GetFileAttributesW. rewrite Pl, Kp. unfold reparse_attr. rewrite Kp.
  destruct recursive; cbn [bind]; (rewrite cstr_at by exact Zp); cbn [bind]; unfold RemoveDirectoryW; rewrite Pl; (destruct p as [|c p]; [congruence|]); rewrite Kp, Dp, Rp; cbn [negb orb];
    exists (del t (c :: p)); (split; [reflexivity|]); (split; [|intros q Hq]); (rewrite lookup_del by exact Hp); destruct (path_dec (c :: p) _); congruence.
Qed.
Print Assumptions C88_link.

(** ** Names in ASCII *)
Definition ascii (s : bytes) : Prop := Forall (fun c => 0 < c < 128) s.

Lemma ascii_text s : ascii s -> good_text s /\ ~ In 0 s /\ s = text enc8 s /\ text enc16 s = s.
Proof.
  intro H. assert (Al : Forall allowed s).
  { eapply Forall_impl; [|exact H]. intros c Hc. unfold allowed. rewrite N.mod_small by (cbn beta in Hc; lia). cbn beta in Hc. lia. }
  split; [split; [exact Al|destruct s as [|c s]; [exact I|]; pose proof (Forall_inv H); unfold combining; cbn beta in *; lia]|].
  split; [intro X; unfold ascii in H; rewrite Forall_forall in H; specialize (H 0 X); cbn beta in H; lia|]. clear Al.
  induction s as [|c s IH]; [split; reflexivity|]. destruct (IH (Forall_inv_tail H)) as [A B]. pose proof (Forall_inv H) as Hc. cbn beta in Hc. split.
  - change (text enc8 (c :: s)) with (enc8 c ++ text enc8 s). rewrite <- A. unfold enc8. destruct (N.ltb_spec c 128); [reflexivity|lia].
  - change (text enc16 (c :: s)) with (enc16 c ++ text enc16 s). rewrite B. unfold enc16. destruct (N.ltb_spec c 65536); [reflexivity|lia].
Qed.

Lemma stands_ascii v p : ascii (full v p) -> stands_for v (full v p) p.
Proof. intro H. destruct (ascii_text _ H) as (G & Z & E8 & E16). exists (full v p). repeat split; try assumption; apply G. Qed.

Lemma resolve_chars (P : N -> Prop) cs : forall st, Forall (Forall P) st -> Forall (Forall P) cs -> Forall (Forall P) (resolve st cs).
Proof.
  induction cs as [|c cs IH]; intros st F G; [exact F|]. cbn [resolve]. pose proof (Forall_inv G) as G1. apply Forall_inv_tail in G.
  destruct (list_eq_dec N.eq_dec c []); [apply IH; assumption|]. destruct (list_eq_dec N.eq_dec c [46]); [apply IH; assumption|].
  destruct (list_eq_dec N.eq_dec c [46; 46]); [apply IH; [apply Forall_removelast; exact F|exact G]|].
  apply IH; [|exact G]. apply Forall_app. split; [exact F|constructor; [exact G1|constructor]].
Qed.

Lemma wsplit_chars (P : N -> Prop) s : Forall P s -> Forall (Forall P) (wsplit s).
Proof.
  induction s as [|c s IH]; intro F; [constructor; constructor|]. specialize (IH (Forall_inv_tail F)). cbn [wsplit]. destruct (c =? 92).
  - constructor; [constructor|exact IH].
  - pose proof (wsplit_ne s). destruct (wsplit s) as [|h t]; [congruence|].
    constructor; [|exact (Forall_inv_tail IH)]. constructor; [exact (Forall_inv F)|exact (Forall_inv IH)].
Qed.

Lemma ascii_render l : Forall ascii l -> ascii (wrender l).
Proof.
  induction l as [|c r IH]; intro F; [constructor|]. unfold wrender. cbn [flat_map app]. constructor; [lia|]. apply Forall_app.
  split; [exact (Forall_inv F)|exact (IH (Forall_inv_tail F))].
Qed.

Lemma ascii_full v s : ascii v -> ascii s -> ascii (full v (resolve [] (wsplit s))).
Proof.
  intros Hv Hs. apply Forall_app. split; [exact Hv|]. apply ascii_render. exact (resolve_chars _ (wsplit s) [] (Forall_nil _) (wsplit_chars _ s Hs)).
Qed.

(** An absolute name in ASCII stands for the directory found by walking from the root of its volume. *)
Theorem C88_absolute : forall v ro dl sgn vol cwd g2 g3 gr gw name s t D fuel,
  length g2 = S LIM -> length g3 = S LIM -> last g2 0 <> 92 -> length gr = S LIM -> length gw = S LIM ->
  wf_utf8 name -> Forall (fun c => 0 < c < 256) name -> accepts sgn name (v ++ s) -> volume v -> rooted s -> ascii v -> ascii s ->
  (length v + length s + 3 <= LIM)%nat ->
  let p := resolve [] (wsplit s) in (length (full v p) <= N.to_nat 8190)%nat ->
  wsound t -> (forall q k, In (q, k) t -> (length q <= D)%nat) -> (D < fuel)%nat -> p <> [] -> lookup t p = Some KDir ->
  exists t' ok, WRmdir v ro dl sgn vol cwd g2 g3 gr gw fuel t name true = Ok (t', ok) /\
    (forall q, under p q -> clearable v ro t q -> lookup t' q = None) /\
    (forall q, ~ (under p q /\ clearable v ro t q) -> lookup t' q = lookup t q) /\
    (ok = true <-> lookup t' p = None).
Proof.
  intros v ro dl sgn vol cwd g2 g3 gr gw name s t D fuel L2 L3 Z Lr Lg W C A V R Av As Len p Lp So HD Hf Hp Kp.
  destruct (C84_absolute sgn vol g2 g3 cwd gr None name v s false L2 L3 Z W C A V R Len) as (r & E & Er & _).
  { rewrite app_nil_r. fold p. change (length (full v p) < length gr)%nat. rewrite Lr. change LIM with (N.to_nat 8191). lia. }
  rewrite app_nil_r in Er. apply (C88_removes v ro dl sgn vol cwd g2 g3 gr gw name r (full v p) p t D fuel); try assumption.
  apply stands_ascii, ascii_full; assumption.
Qed.
Print Assumptions C88_absolute.

Definition drive : bytes := p_uni ++ [67; 58].
Definition wd (s : string) : bytes := chars s.

(** The property as first stated, "removes the directory with everything beneath it", is false: a
    read-only file stays, and so do the directories on the way to it. *)
Theorem C88_readonly_refuted : exists t ro, let f := [wd "d"; wd "e"; wd "f"] in
  wsound t /\ lookup t [wd "d"] = Some KDir /\ lookup t f = Some KFile /\ ro f = true /\
  exists t', WRmdir drive ro (fun _ => false) true none None blank blank blank blank 9 t (chars "c:/d") true = Ok (t', false) /\
    lookup t' f = Some KFile /\ lookup t' [wd "d"; wd "g"] = None /\ lookup t [wd "d"; wd "g"] = Some KFile.
Proof.
  exists [([wd "d"; wd "g"], KFile); ([wd "d"], KDir); ([wd "d"; wd "e"], KDir); ([wd "d"; wd "e"; wd "f"], KFile)].
  exists (fun q => if path_dec q [wd "d"; wd "e"; wd "f"] then true else false). split; [split|].
  - intros p k [E|[E|[E|[E|[]]]]]; injection E as <- _; (split; [discriminate|]); repeat (apply Forall_cons || apply Forall_nil);
      (split; [discriminate|]; split; [intro X; repeat (destruct X as [X|X]; [discriminate|]); exact X|];
       split; [intro X; repeat (destruct X as [X|X]; [discriminate|]); exact X|split; discriminate]).
  - intros p c L. destruct (lookup_in _ _ L) as [X|[k X]]; [destruct p; discriminate|]. destruct X as [X|[X|[X|[X|[]]]]]; injection X as X _;
      [change [wd "d"; wd "g"] with ([wd "d"] ++ [wd "g"]) in X|change [wd "d"] with ([] ++ [wd "d"]) in X|change [wd "d"; wd "e"] with ([wd "d"] ++ [wd "e"]) in X|
       change [wd "d"; wd "e"; wd "f"] with ([wd "d"; wd "e"] ++ [wd "f"]) in X]; apply app_inj_tail in X; destruct X as [<- _]; reflexivity.
  - split; [reflexivity|]. split; [reflexivity|]. split; [reflexivity|]. eexists. split; [vm_compute; reflexivity|]. split; [vm_compute; reflexivity|]. split; vm_compute; reflexivity.
Qed.
Print Assumptions C88_readonly_refuted.

(** Links to a directory outside and to the parent, a file link, and names outside ASCII. *)
Example C88_ex :
  let dl := fun q => if path_dec q [wd "d"; wd "file"] then false else true in
  let t := [([wd "d"; [228; 8364]; wd "f"], KFile); ([wd "k"; wd "f"], KFile); ([wd "d"; wd "l"], KLink [wd "k"]); ([wd "d"; wd "file"], KLink [wd "k"; wd "f"]);
            ([wd "d"; [228; 8364]; wd "up"], KLink [wd "d"]); ([wd "d"], KDir); ([wd "k"], KDir); ([wd "d"; wd "f"], KFile); ([wd "d"; [228; 8364]], KDir)] in
  WRmdir drive (fun _ => false) dl true none None blank blank blank blank 9 t (chars "C:\d\x\..") true = Ok ([([wd "k"; wd "f"], KFile); ([wd "k"], KDir)], true) /\
  (exists t', WRmdir drive (fun _ => false) dl true none None blank blank blank blank 9 t (chars "C:/d/l") true = Ok (t', true) /\ lookup t' [wd "k"; wd "f"] = Some KFile /\ length t' = 8%nat) /\
  WRmdir drive (fun _ => false) dl true none None blank blank blank blank 9 t (chars "C:/d") false = Ok (t, false).
Proof.
  split; [vm_compute; reflexivity|]. split; [|vm_compute; reflexivity]. eexists. split; [vm_compute; reflexivity|]. split; vm_compute; reflexivity.
Qed.

(** ** C91 *)

(** The wide file name is the UTF-16 text of the normal form, with a terminator. *)
Theorem C91_wide : forall sgn vol g b name out cps, wf_utf8 name -> Forall (fun c => 0 < c < 256) name -> accepts sgn name out ->
  ~ begins_with p_vol (canon (win name)) -> (length out < length g)%nat -> good_text cps -> out = text enc8 cps -> (length (text enc16 cps) < length b)%nat ->
  exists rest, GetWindowsPlatformFilename sgn vol g b name false = Ok (text enc16 cps ++ 0 :: rest, true) /\ length (text enc16 cps ++ 0 :: rest) = length b.
Proof.
  intros sgn vol g b name out cps W C A V L G Eo Lb. destruct (accepted_text sgn vol g name out A W C V L) as (E & Z & _).
  unfold GetWindowsPlatformFilename. rewrite E. cbn [bind negb]. rewrite cstr_app by exact Z. cbn [bind]. rewrite Eo. rewrite from8_all by (assumption || lia). cbn [bind].
  eexists. split; [reflexivity|]. rewrite app_length. cbn [length]. rewrite skipn_length. lia.
Qed.
Print Assumptions C91_wide.

Lemma takes_ascii cap acc s o : takes enc16 (Some cap) acc s o -> Forall (fun c => c < 128) s -> (length acc <= cap)%nat ->
  o = acc ++ firstn (cap - length acc) s.
Proof.
  induction 1 as [acc|acc c r o A T IH|acc c r A]; intros F L.
  - rewrite firstn_nil, app_nil_r. reflexivity.
  - pose proof (Forall_inv F) as Hc. cbn beta in Hc. assert (E : enc16 c = [c]) by (unfold enc16; destruct (N.ltb_spec c 65536); [reflexivity|lia]).
    destruct A as (_ & _ & A). cbn [fits] in A. rewrite E in *. cbn [length] in A. rewrite IH by (exact (Forall_inv_tail F) || (rewrite app_length; cbn [length]; lia)).
    rewrite app_length. cbn [length]. destruct (cap - length acc)%nat as [|k] eqn:K; [lia|]. replace (cap - (length acc + 1))%nat with k by lia.
    rewrite <- app_assoc. reflexivity.
  - destruct (cap - length acc)%nat as [|k] eqn:K; [rewrite app_nil_r; reflexivity|]. exfalso. apply A. pose proof (Forall_inv F) as Hc. cbn beta in Hc.
    split; [unfold allowed; rewrite N.mod_small by lia; lia|]. split; [intros _; unfold combining; lia|]. unfold enc16. destruct (N.ltb_spec c 65536); [cbn [fits length]; lia|lia].
Qed.

(** When the caller's buffer is too small the call still says true, and the name in the buffer is
    cut off, with no terminator. *)
Theorem C91_short_refuted : forall sgn vol g b name out, wf_utf8 name -> Forall (fun c => 0 < c < 256) name -> accepts sgn name out ->
  ~ begins_with p_vol (canon (win name)) -> (length out < length g)%nat -> ascii out -> (length b <= length out)%nat ->
  GetWindowsPlatformFilename sgn vol g b name false = Ok (firstn (length b) out, true) /\ ~ In 0 (firstn (length b) out).
Proof.
  intros sgn vol g b name out W C A V L As Lb. destruct (accepted_text sgn vol g name out A W C V L) as (E & Z & _).
  assert (Zf : ~ In 0 (firstn (length b) out)).
  { intro X. apply (proj1 (Forall_forall _ _) Z 0); [|reflexivity]. rewrite <- (firstn_skipn (length b) out). apply in_or_app. left. exact X. }
  split; [|exact Zf]. unfold GetWindowsPlatformFilename. rewrite E. cbn [bind negb]. rewrite cstr_app by exact Z. cbn [bind].
  destruct (ascii_text out As) as (G & Zo & E8 & E16).
  assert (Bl : byteList (out ++ [0])).
  { apply Forall_app. split; [eapply Forall_impl; [|exact As]; intros c Hc; cbn beta in Hc; unfold isByte; lia|]. constructor; [reflexivity|constructor]. }
  assert (Sc : scan8 (out ++ [0]) (out ++ [0])).
  { replace (out ++ [0]) with (text enc8 (out ++ [0])) at 1; [apply scan8_text|].
    - apply Forall_app. split; [exact (proj1 G)|constructor; [apply P_WinFile.zero_allowed|constructor]].
    - rewrite P_WinFile.text_app, <- E8. reflexivity. }
  destruct (convertfrom_spec Wd2 (out ++ [0]) (out ++ [0]) (Some b) (length b) (le_n _) ltac:(left; discriminate) Bl Sc) as (o & Ev & T).
  match goal with |- context [ConvertFromUTF8 ?a ?x ?y ?z] => let X := fresh in assert (X : ConvertFromUTF8 a x y z = _) by exact Ev; rewrite X; clear X end. cbn [bind rep]. f_equal. f_equal.
  apply takes_ascii in T; [|apply Forall_app; split; [eapply Forall_impl; [|exact As]; cbn beta; lia|repeat constructor]|cbn; lia].
  cbn [length] in T. rewrite Nat.sub_0_r, firstn_app in T. replace (length b - length out)%nat with 0%nat in T by lia. cbn [firstn app] in T. rewrite app_nil_r in T.
  rewrite T, skipn_all2 by (rewrite firstn_length; lia). apply app_nil_r.
Qed.
Print Assumptions C91_short_refuted.

(** "c:/ä" with unsigned char, and a buffer of 3 units. *)
Example C91_ex :
  GetWindowsPlatformFilename false none blank (ones 9) [99; 58; 47; 195; 164] false = Ok (p_uni ++ [67; 58; 92; 228] ++ [0], true) /\
  GetWindowsPlatformFilename true none blank (ones 3) (chars "c:/d") false = Ok ([92; 92; 63], true).
Proof. split; vm_compute; reflexivity. Qed.

(** ** C92 *)

(** A recursive Mkdir makes exactly the missing directories on the way, and says whether the last
    one was missing. *)
Theorem C92_creates : forall v sgn vol cwd g2 g3 gr gw name r a p t,
  WGetAbsoluteFilename sgn vol g2 g3 cwd gr None name false = Ok (r, true) -> cstr r = Ok (v ++ a) -> stands_for v (v ++ a) p ->
  volume v -> (length (full v p) < length gw)%nat -> Forall wname p -> p <> [] ->
  (forall x, under x p -> lookup t x = None \/ lookup t x = Some KDir) ->
  exists t' ok, WMkdir v sgn vol cwd g2 g3 gr gw t name true = Ok (t', ok) /\ (ok = true <-> lookup t p = None) /\
    (forall q, under q p -> lookup t' q = Some KDir) /\ (forall q, ~ under q p -> lookup t' q = lookup t q).
Proof.
  intros v sgn vol cwd g2 g3 gr gw name r a p t E Er St V Lg F Hp H. destruct (stands_nz v (v ++ a) p St) as [Zv Zp].
  destruct St as (cps & G & Z & E8 & E16). destruct (start_volume v V) as (w & h & Ev & H9 & Sv).
  unfold WMkdir. rewrite E. cbn [bind negb]. rewrite Er. cbn [bind]. rewrite Sv. rewrite E8, from8_all by (assumption || (rewrite E16; lia)). cbn [bind]. rewrite E16.
  rewrite cstr_at by exact Zp. cbn [bind]. destruct p as [|c b]; [congruence|].
  assert (Ef : full v (c :: b) = w ++ h ++ 92 :: c ++ wrender b) by (unfold full; rewrite Ev, <- app_assoc; reflexivity).
  assert (X : to_bs_or_end (length (full v (c :: b)) - length w) (full v (c :: b)) (length w) = length v).
  { rewrite Ef, to_bs_or_end_word, <- Ev; [reflexivity|exact H9|intro X; apply Zv; rewrite Ev; apply in_or_app; right; exact X|rewrite !app_length; lia|left; reflexivity]. }
  rewrite X. replace (nth (length v) (full v (c :: b)) 0) with 92 by (rewrite Ef, app_assoc, <- Ev, app_nth2, Nat.sub_diag by lia; reflexivity). cbn [N.eqb Pos.eqb].
  change (92 =? 92) with true. cbv iota.
  replace (length (full v (c :: b)) - S (length v))%nat with (length (c ++ wrender b)) by (unfold full; rewrite (app_length v); change (wrender (c :: b)) with (92 :: c ++ wrender b); cbn [length]; lia).
  destruct (wmkdirs_loop v t b [] c t) as (t1 & z & y & E1 & E2 & E3); [|exact F|exact H|].
  { intro q. destruct (under_dec q []) as [[s Es]|_]; [|reflexivity]. symmetry in Es. apply app_eq_nil in Es. destruct Es as [-> _]. reflexivity. }
  cbn [app] in E1, E2. replace (length (full v [] ++ [92])) with (S (length v)) in E2 by (unfold full; cbn [wrender flat_map]; rewrite app_nil_r, app_length; cbn [length]; lia).
  rewrite E2, E1 in *. destruct (wmade_step v t y z t1 E3 F) as [M1 S1]; [apply H; apply under_self|].
  exists (fst (CreateDirectoryW v t1 (full v (y ++ [z])))), (snd (CreateDirectoryW v t1 (full v (y ++ [z])))).
  split; [destruct (CreateDirectoryW v t1 (full v (y ++ [z]))); reflexivity|]. split; [rewrite S1; destruct (lookup t (y ++ [z])); split; congruence|].
  split; intros q U; rewrite M1; destruct (under_dec q (y ++ [z])); congruence || contradiction || reflexivity.
Qed.
Print Assumptions C92_creates.

(** For every tree and every name that has an absolute form: what exists stays, and only
    directories are new. *)
Theorem C92_keeps : forall v sgn vol cwd g2 g3 gr gw name r abs p t recursive,
  WGetAbsoluteFilename sgn vol g2 g3 cwd gr None name false = Ok (r, true) -> cstr r = Ok abs -> stands_for v abs p -> (length (full v p) < length gw)%nat ->
  exists t' ok, WMkdir v sgn vol cwd g2 g3 gr gw t name recursive = Ok (t', ok) /\
  forall q, lookup t' q = lookup t q \/ (lookup t q = None /\ lookup t' q = Some KDir).
Proof.
  intros v sgn vol cwd g2 g3 gr gw name r abs p t recursive E Er St Lg. destruct (stands_nz v abs p St) as [Zv Zp].
  destruct St as (cps & G & Z & E8 & E16).
  unfold WMkdir. rewrite E. cbn [bind negb]. rewrite Er. cbn [bind]. rewrite E8, from8_all by (assumption || (rewrite E16; lia)). cbn [bind]. rewrite E16.
  rewrite cstr_at by exact Zp. cbn [bind]. rewrite <- E8.
  assert (One : forall t0 s q, lookup (fst (CreateDirectoryW v t0 s)) q = lookup t0 q \/ (lookup t0 q = None /\ lookup (fst (CreateDirectoryW v t0 s)) q = Some KDir)).
  { intros t0 s q. unfold CreateDirectoryW. destruct (wplace_of v t0 s) as [x|]; [|left; reflexivity]. destruct (lookup t0 x) as [k|] eqn:Lx; [left; reflexivity|].
    destruct (lookup t0 (removelast x)) as [[| |]|]; try (left; reflexivity). cbn [fst]. destruct q as [|c q]; [left; reflexivity|]. cbn [lookup entry].
    destruct (path_dec x (c :: q)) as [->|_]; [right; split; [exact Lx|reflexivity]|left; reflexivity]. }
  assert (Many : forall s n x t0 q, lookup (wmkdirs v n t0 s x) q = lookup t0 q \/ (lookup t0 q = None /\ lookup (wmkdirs v n t0 s x) q = Some KDir)).
  { intro s. induction n as [|n IH]; intros x t0 q; [left; reflexivity|]. cbn [wmkdirs]. destruct (nth x s 0 =? 92); [|apply IH].
    destruct (IH (S x) (fst (CreateDirectoryW v t0 (firstn x s))) q) as [A|[A1 A2]]; destruct (One t0 (firstn x s) q) as [B|[B1 B2]];
      [left; congruence|right; split; congruence|right; split; congruence|congruence]. }
  set (t1 := if recursive then _ else t).
  assert (H : forall q, lookup t1 q = lookup t q \/ (lookup t q = None /\ lookup t1 q = Some KDir)) by (intro q; unfold t1; destruct recursive; [apply Many|left; reflexivity]).
  clearbody t1. exists (fst (CreateDirectoryW v t1 (full v p))), (snd (CreateDirectoryW v t1 (full v p))). split; [destruct (CreateDirectoryW v t1 (full v p)); reflexivity|].
  intro q. destruct (H q) as [A|[A1 A2]]; destruct (One t1 (full v p) q) as [B|[B1 B2]]; [left; congruence|right; split; congruence|right; split; congruence|congruence].
Qed.
Print Assumptions C92_keeps.

Example C92_ex :
  let t := [([wd "d"], KDir); ([wd "f"], KFile)] in
  WMkdir drive true none None blank blank blank blank t (chars "c:/d/a/b") true = Ok (([wd "d"; wd "a"; wd "b"], KDir) :: ([wd "d"; wd "a"], KDir) :: t, true) /\
  WMkdir drive true none None blank blank blank blank t (chars "c:/d/a/b") false = Ok (t, false) /\
  WMkdir drive true none None blank blank blank blank t (chars "c:/d") true = Ok (t, false) /\
  WMkdir drive true none None blank blank blank blank t (chars "c:/f/g/h") true = Ok (t, false).
Proof. split; [vm_compute; reflexivity|]. split; [vm_compute; reflexivity|]. split; vm_compute; reflexivity. Qed.
