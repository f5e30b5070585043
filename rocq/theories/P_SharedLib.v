(** Proofs about the shared library wrapper. *)
From Verif Require Import Base S_Seq P_Dll M_SharedLib S_SharedLib.

Section Proofs.
Variable e : env.

Definition exec (o : op) (w : world) : world * answer :=
  match o with
  | OCall f a => let '(w1, r) := Call e w f a in (w1, match r with Some v => ATrue (Some v) | None => AFalse end)
  | OVoid f a => let '(w1, r) := CallVoid e w f a in (w1, if r then ATrue None else AFalse)
  | OOnce fl nm a => let '(w1, r) := CallOnce e w fl nm a in (w1, match r with Some v => ATrue (Some v) | None => AFalse end)
  | OOnceVoid fl nm a => let '(w1, r) := CallOnceVoid e w fl nm a in (w1, if r then ATrue None else AFalse)
  end.

Fixpoint run (p : list op) (w : world) : world * list answer :=
  match p with
  | [] => (w, [])
  | o :: p' => let '(w1, a) := exec o w in let '(w2, l) := run p' w1 in (w2, a :: l)
  end.

Definition called (l : list event) : list (N * list N) :=
  flat_map (fun x => match x with ECall p a => [(p, a)] | _ => [] end) l.

Lemma called_app a b : called (a ++ b) = called a ++ called b.
Proof. apply flat_map_app. Qed.

(** ** A system that answers the same at all times *)
Variable open : N -> option N.
Variable sym : N -> N -> option N.
Hypothesis constant_open : forall t f, dlopen e t f = open f.
Hypothesis constant_sym : forall t h n, dlsym e t h n = sym h n.
Variable file : nat -> N.
Variable home : nat -> nat.
Variable name : nat -> N.

Definition mod_ok (m : module_) (i : nat) : Prop :=
  m = LibState (Some (file i)) None \/ m = LibState None (open (file i)).
Definition func_ok (f : func) (i : nat) : Prop :=
  f = Func (home i) (Some (name i)) None \/ f = Func (home i) None (exported open sym (file (home i)) (name i)).
Definition good (w : world) : Prop := (forall i, mod_ok (mods w i) i) /\ (forall i, func_ok (funcs w i) i).

Lemma start_good : good (start file home name).
Proof. split; intros i; left; reflexivity. Qed.

Lemma Load_ok w m : (forall i, mod_ok (mods w i) i) ->
  exists w', Load e w m = (w', open (file m)) /\ (forall i, mod_ok (mods w' i) i) /\ funcs w' = funcs w /\ called (trace w') = called (trace w).
Proof.
  intros G. unfold Load. destruct (G m) as [E|E]; rewrite E; cbn [mptr mfile].
  - rewrite constant_open. eexists. split; [reflexivity|]. cbn. split; [|split; auto].
    + intros i. destruct (Nat.eq_dec i m) as [->|Ne]; [rewrite fupd_same; right; reflexivity|rewrite fupd_other; auto].
    + rewrite called_app. apply app_nil_r.
  - destruct (open (file m)) as [h|] eqn:Eo; cbn; exists w; auto.
Qed.

Lemma exported_some fl nm h : open fl = Some h -> exported open sym fl nm = sym h nm.
Proof. unfold exported. now intros ->. Qed.

Lemma LoadFunc_ok w f : good w -> fname (funcs w f) <> None ->
  exists w', LoadFuncPtr e w f = (w', exported open sym (file (home f)) (name f)) /\ good w' /\ called (trace w') = called (trace w).
Proof.
  intros [G1 G2] Hn. unfold LoadFuncPtr. destruct (G2 f) as [E|E]; rewrite E in *; cbn [fname fmod fptr] in *; [|congruence].
  set (w1 := World _ _ _). destruct (Load_ok w1 (home f)) as (w2 & E2 & H1 & H2 & H3); [exact G1|]. rewrite E2.
  assert (F : forall g x, (forall i, i <> f -> g i = funcs w i) -> g f = Func (home f) None x ->
     x = exported open sym (file (home f)) (name f) -> forall i, func_ok (g i) i).
  { intros g x A B -> i. destruct (Nat.eq_dec i f) as [->|Ne]; [rewrite B; right; reflexivity|rewrite A; auto]. }
  destruct (open (file (home f))) as [h|] eqn:Eo.
  - rewrite constant_sym. rewrite (exported_some _ _ _ Eo). eexists. split; [reflexivity|]. cbn.
    split; [split; [exact H1|]|].
    + apply F with (x := sym h (name f)).
      * intros i Ne. cbn. rewrite fupd_other by auto. rewrite H2. cbn. now rewrite fupd_other by auto.
      * cbn. now rewrite fupd_same.
      * now rewrite (exported_some _ _ _ Eo).
    + rewrite called_app, H3. cbn. apply app_nil_r.
  - exists w2. assert (exported open sym (file (home f)) (name f) = None) as X by (unfold exported; now rewrite Eo).
    rewrite X. split; auto. split; auto. split; auto. rewrite H2.
    apply F with (x := None); auto.
    + intros i Ne. cbn. now rewrite fupd_other by auto.
    + cbn. rewrite fupd_same. reflexivity.
Qed.

Lemma good_emit w x : good w -> good (emit w x).
Proof. auto. Qed.

Lemma Call_ok w f a : good w -> exists w', good w' /\
  match exported open sym (file (home f)) (name f) with
  | Some p => Call e w f a = (w', Some (result e p a)) /\ called (trace w') = called (trace w) ++ [(p, a)]
  | None => Call e w f a = (w', None) /\ called (trace w') = called (trace w)
  end.
Proof.
  intros G. unfold Call. pose proof (proj2 G f) as Hf.
  assert (P : exists w1, (match fptr (funcs w f) with Some p => (w, Some p) | None => LoadFuncPtr e w f end) =
     (w1, exported open sym (file (home f)) (name f)) /\ good w1 /\ called (trace w1) = called (trace w)).
  { destruct Hf as [E|E].
    - replace (fptr (funcs w f)) with (@None N) by (rewrite E; reflexivity). apply LoadFunc_ok; auto. rewrite E. discriminate.
    - replace (fptr (funcs w f)) with (exported open sym (file (home f)) (name f)) by (rewrite E; reflexivity). destruct (exported open sym (file (home f)) (name f)) as [p|] eqn:X; [eauto|].
      exists w. unfold LoadFuncPtr. rewrite E. cbn. auto. }
  destruct P as (w1 & E1 & G1 & C1). rewrite E1.
  destruct (exported open sym (file (home f)) (name f)) as [p|].
  - exists (emit w1 (ECall p a)). split; auto. split; auto. cbn. rewrite called_app, C1. reflexivity.
  - exists w1. auto.
Qed.

Lemma Void_ok w f a : good w -> CallVoid e w f a = (w, false).
Proof.
  intros G. unfold CallVoid. destruct (proj2 G f) as [E|E]; rewrite E; cbn [fptr]; auto.
  destruct (exported open sym (file (home f)) (name f)); auto. unfold LoadFuncPtr. rewrite E. reflexivity.
Qed.

Lemma Once_ok w fl nm a : good w -> exists w', good w' /\
  match exported open sym fl nm with
  | Some p => CallOnce e w fl nm a = (w', Some (result e p a)) /\ called (trace w') = called (trace w) ++ [(p, a)]
  | None => CallOnce e w fl nm a = (w', None) /\ called (trace w') = called (trace w)
  end.
Proof.
  intros G. unfold CallOnce, exported. rewrite constant_open. destruct (open fl) as [h|].
  - rewrite constant_sym. destruct (sym h nm) as [p|].
    + eexists. split; [|split; [reflexivity|]]; [repeat apply good_emit; exact G|]. cbn. rewrite !called_app. cbn. now rewrite !app_nil_r.
    + eexists. split; [|split; [reflexivity|]]; [repeat apply good_emit; exact G|]. cbn. rewrite !called_app. cbn. now rewrite !app_nil_r.
  - eexists. split; [|split; [reflexivity|]]; [repeat apply good_emit; exact G|]. cbn. rewrite !called_app. cbn. now rewrite !app_nil_r.
Qed.

Definition not_void (o : op) : Prop := match o with OVoid _ _ => False | _ => True end.

Lemma run_ok p : forall w, good w -> Forall not_void p ->
  exists w', run p w = (w', map (wanted open sym (result e) file home name) p) /\ good w' /\
    called (trace w') = called (trace w) ++ calls open sym file home name p.
Proof.
  induction p as [|o p IH]; intros w G F; cbn [run map calls flat_map].
  - exists w. rewrite app_nil_r. auto.
  - assert (X : exists w1, exec o w = (w1, wanted open sym (result e) file home name o) /\ good w1 /\
      called (trace w1) = called (trace w) ++ match target open sym file home name o with Some q => [(q, arguments o)] | None => [] end).
    { pose proof (Forall_inv F) as NV. destruct o as [f a|f a|fl nm a|fl nm a]; cbn [exec] in *; [|destruct NV|..];
        unfold wanted; cbn [target arguments].
      - destruct (Call_ok w f a G) as (w1 & G1 & H). destruct (exported open sym (file (home f)) (name f)) as [q|];
          destruct H as [E C]; rewrite E; exists w1; rewrite ?app_nil_r; auto.
      - destruct (Once_ok w fl nm a G) as (w1 & G1 & H). destruct (exported open sym fl nm) as [q|];
          destruct H as [E C]; rewrite E; exists w1; rewrite ?app_nil_r; auto.
      - unfold CallOnceVoid. destruct (Once_ok w fl nm a G) as (w1 & G1 & H). destruct (exported open sym fl nm) as [q|];
          destruct H as [E C]; rewrite E; exists w1; rewrite ?app_nil_r; auto. }
    destruct X as (w1 & E1 & G1 & C1). rewrite E1. destruct (IH w1 G1 (Forall_inv_tail F)) as (w2 & E2 & G2 & C2).
    rewrite E2. exists w2. split; auto. split; auto. rewrite C2, C1, <- app_assoc. reflexivity.
Qed.
End Proofs.

(** ** Any system: how often it is asked, and CallVoid *)
Section Any.
Variable e : env.
Variable file : nat -> N.
Variable home : nat -> nat.
Variable name : nat -> N.

Definition opens (fl : N) (l : list event) : nat :=
  length (filter (fun x => match x with EOpen f => N.eqb f fl | _ => false end) l).
Definition syms (nm : N) (l : list event) : nat :=
  length (filter (fun x => match x with ESym _ n => N.eqb n nm | _ => false end) l).

Lemma opens_app fl a b : opens fl (a ++ b) = opens fl a + opens fl b.
Proof. unfold opens. rewrite filter_app, app_length. reflexivity. Qed.
Lemma syms_app nm a b : syms nm (a ++ b) = syms nm a + syms nm b.
Proof. unfold syms. rewrite filter_app, app_length. reflexivity. Qed.

Lemma opens_one fl x : opens fl [x] = match x with EOpen f => if N.eqb f fl then 1 else 0 | _ => 0 end.
Proof. unfold opens. destruct x as [f| |]; cbn; auto. now destruct (N.eqb f fl). Qed.
Lemma syms_one nm x : syms nm [x] = match x with ESym _ n => if N.eqb n nm then 1 else 0 | _ => 0 end.
Proof. unfold syms. destruct x as [|h n|]; cbn; auto. now destruct (N.eqb n nm). Qed.
Arguments opens : simpl never.
Arguments syms : simpl never.

Hypothesis file_inj : forall i j, file i = file j -> i = j.
Hypothesis name_inj : forall i j, name i = name j -> i = j.

(** A module that still has its file name was never opened; one that lost it was opened once. *)
Definition once (w : world) : Prop :=
  (forall i, (mods w i = LibState (Some (file i)) None /\ opens (file i) (trace w) = 0) \/
             (mfile (mods w i) = None /\ opens (file i) (trace w) <= 1)) /\
  (forall i, fmod (funcs w i) = home i /\
             ((fname (funcs w i) = Some (name i) /\ fptr (funcs w i) = None /\ syms (name i) (trace w) = 0) \/
              (fname (funcs w i) = None /\ syms (name i) (trace w) <= 1))).

Lemma once_start : once (start file home name).
Proof. split; intros i; cbn; auto. Qed.

Lemma once_call w p a : once w -> once (emit w (ECall p a)).
Proof.
  intros [G1 G2]. split; intros i.
  - specialize (G1 i). cbn. rewrite opens_app, opens_one. rewrite Nat.add_0_r. exact G1.
  - specialize (G2 i). cbn. rewrite syms_app, syms_one. rewrite Nat.add_0_r. exact G2.
Qed.

Lemma once_load w m w' h : once w -> Load e w m = (w', h) -> once w' /\ funcs w' = funcs w /\ (forall n, syms n (trace w') = syms n (trace w)).
Proof.
  intros [G1 G2] E. unfold Load in E. destruct (mptr (mods w m)) eqn:Ep; [inversion E; subst; split; [split; auto|auto]|].
  destruct (mfile (mods w m)) eqn:Ef; [|inversion E; subst; split; [split; auto|auto]].
  inversion E; subst. clear E. cbn. split; [split; intros i|].
  - cbn. rewrite opens_app, opens_one. destruct (Nat.eq_dec i m) as [->|Ne].
    + rewrite fupd_same. right. split; auto. destruct (G1 m) as [[_ Z]|[Z _]]; [|congruence]. rewrite Z.
      destruct (n =? file m)%N; cbn; lia.
    + rewrite fupd_other by auto. replace (if (n =? file i)%N then 1 else 0) with 0; [rewrite Nat.add_0_r; apply G1|].
      assert (n = file m) as ->. { destruct (G1 m) as [[Z _]|[Z _]]; rewrite ?Z in Ef; cbn in Ef; congruence. }
      destruct (N.eqb_spec (file m) (file i)) as [X|X]; auto. apply file_inj in X. congruence.
  - cbn. rewrite syms_app, syms_one. rewrite Nat.add_0_r. apply G2.
  - split; auto. intros k. rewrite syms_app, syms_one. lia.
Qed.

Lemma once_func w f w' h : once w -> LoadFuncPtr e w f = (w', h) -> once w' /\ (fname (funcs w f) = None -> w' = w /\ h = None).
Proof.
  intros G E. pose proof G as [G1 G2]. unfold LoadFuncPtr in E. destruct (fname (funcs w f)) as [nm|] eqn:En.
  2:{ inversion E; subst. auto. }
  split; [|congruence].
  set (w1 := World _ _ _) in E. destruct (G2 f) as [Hm [(Hn & Hp & Hs)|[Hn _]]]; [|congruence].
  assert (nm = name f) as -> by congruence.
  assert (O1 : once w1).
  { split; [exact G1|]. intros i. unfold w1. cbn. destruct (Nat.eq_dec i f) as [->|Ne].
    - rewrite fupd_same. cbn. split; auto. right. split; auto. lia.
    - rewrite fupd_other by auto. apply G2. }
  destruct (Load e w1 (fmod (funcs w f))) as [w2 h2] eqn:EL. destruct (once_load _ _ _ _ O1 EL) as ([O2 O2'] & F2 & S2).
  destruct h2 as [h2|]; inversion E; subst; [|split; auto]. cbn. split; intros i.
  - cbn. rewrite opens_app, opens_one. rewrite Nat.add_0_r. apply O2.
  - cbn. rewrite syms_app, syms_one. destruct (Nat.eq_dec i f) as [->|Ne].
    + rewrite fupd_same. cbn. split; auto. right. split; auto. rewrite S2. unfold w1. cbn. rewrite Hs.
      destruct (name f =? name f)%N; lia.
    + rewrite fupd_other by auto. replace (if (name f =? name i)%N then 1 else 0) with 0; [rewrite Nat.add_0_r; apply O2'|].
      destruct (N.eqb_spec (name f) (name i)) as [X|X]; auto. apply name_inj in X. congruence.
Qed.

Lemma void_never w f a : once w -> CallVoid e w f a = (w, false).
Proof.
  intros G. unfold CallVoid. destruct (fptr (funcs w f)) as [p|] eqn:Ep; auto.
  destruct (LoadFuncPtr e w f) as [w1 h] eqn:E. destruct (once_func _ _ _ _ G E) as [_ X].
  destruct (proj2 G f) as [_ [(_ & Y & _)|[Y _]]]; [congruence|]. destruct (X Y) as [-> ->]. reflexivity.
Qed.

Definition wrapped (o : op) : Prop := match o with OCall _ _ | OVoid _ _ => True | _ => False end.

Lemma once_run p : forall w w' l, once w -> Forall wrapped p -> run e p w = (w', l) -> once w'.
Proof.
  induction p as [|o p IH]; intros w w' l G F E; cbn [run] in E; [inversion E; subst; auto|].
  destruct (exec e o w) as [w1 a] eqn:E1. destruct (run e p w1) as [w2 l2] eqn:E2. inversion E; subst.
  apply (IH w1 w' l2); auto; [|exact (Forall_inv_tail F)]. pose proof (Forall_inv F) as Ho.
  destruct o as [f x|f x| |]; cbn in Ho; try contradiction; cbn [exec] in E1.
  - unfold Call in E1. destruct (fptr (funcs w f)) as [p0|] eqn:Ep.
    + inversion E1; subst. now apply once_call.
    + destruct (LoadFuncPtr e w f) as [w0 h] eqn:E0. destruct (once_func _ _ _ _ G E0) as [G0 _].
      destruct h; inversion E1; subst; auto. now apply once_call.
  - rewrite (void_never w f x G) in E1. inversion E1; subst; auto.
Qed.
End Any.
