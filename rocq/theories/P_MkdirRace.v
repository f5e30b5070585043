(** Proofs about M_MkdirRace. *)
From Verif Require Import Base S_Path S_Tree S_MkdirRace M_Path M_Dir M_MkdirRace P_Path P_Dir.
Open Scope N_scope.

(** ** Alone *)
Lemma rounds_loop d : forall n t x, (x + n = length d)%nat -> mrounds n t (MAt d x) = (mkdirs n t d x, MAt d (x + n)).
Proof.
  induction n as [|n IH]; intros t x E; [cbn; rewrite Nat.add_0_r; reflexivity|]. cbn [mrounds madvance mkdirs].
  destruct (Nat.ltb_spec x (length d)); [|lia]. rewrite IH by lia. f_equal. f_equal. lia.
Qed.
Lemma rounds_more m : forall n t pr, mrounds (n + m) t pr = mrounds m (fst (mrounds n t pr)) (snd (mrounds n t pr)).
Proof.
  induction n as [|n IH]; intros t pr; [reflexivity|]. cbn [Nat.add mrounds]. destruct (madvance t pr) as [[t' pr']|] eqn:E; [apply IH|].
  cbn [fst snd]. destruct m; cbn [mrounds]; [reflexivity|rewrite E; reflexivity].
Qed.
Lemma after_len d : (after_slash d <= length d)%nat.
Proof. induction d as [|c d IH]; cbn; [lia|]. destruct (c =? slash); lia. Qed.

Lemma rounds_all t d x : (x <= length d)%nat ->
  mrounds (S (length d - x)) t (MAt d x) = (fst (mkdir (mkdirs (length d - x) t d x) d), MEnd (snd (mkdir (mkdirs (length d - x) t d x) d))).
Proof.
  intro H. rewrite <- Nat.add_1_r, rounds_more, rounds_loop by lia. cbn [fst snd mrounds madvance].
  destruct (Nat.ltb_spec (x + (length d - x)) (length d)); [lia|]. reflexivity.
Qed.

(** ** One mkdir on the way *)
Lemma mk_at t p : p <> [] -> Forall fname p -> way t p -> lookup t p = None \/ lookup t p = Some KDir ->
  (lookup t p = None /\ snd (mkdir t (render p)) = true /\ forall q, lookup (fst (mkdir t (render p))) q = if path_dec p q then Some KDir else lookup t q) \/
  (lookup t p = Some KDir /\ mkdir t (render p) = (t, false)).
Proof.
  intros Hp F W L. assert (Pl : place_of t (render p) = Some p) by (apply place_way; [apply render_ne; exact Hp|apply components_render; exact F|exact F|exact W]).
  destruct (exists_last Hp) as (a & c & E). assert (La : lookup t (removelast p) = Some KDir).
  { rewrite E, removelast_last. apply (W a [c] E). discriminate. }
  unfold mkdir. rewrite Pl, La. destruct L as [L|L]; rewrite L; [left|right; split; reflexivity].
  split; [reflexivity|]. split; [reflexivity|]. intro q. cbn [fst]. destruct q as [|x q]; cbn [lookup entry]; [destruct (path_dec p []); [contradiction|reflexivity]|reflexivity].
Qed.

(** ** Slashes of a rendered path *)
Lemma slash_at p : forall x, Forall fname p -> (0 < x)%nat -> nth x (render p) 0 = slash ->
  exists a b, p = a ++ b /\ b <> [] /\ a <> [] /\ length (render a) = x /\ firstn x (render p) = render a.
Proof.
  induction p as [|c p IH] using rev_ind; intros x F Hx E.
  - destruct x; discriminate.
  - apply Forall_app in F. destruct F as [F Fc]. rewrite render_add in *. destruct (Nat.lt_trichotomy x (length (render p))) as [H|[H|H]].
    + rewrite app_nth1 in E by exact H. destruct (IH x F Hx E) as (a & b & -> & Hb & Ha & L1 & L2). exists a, (b ++ [c]).
      split; [rewrite app_assoc; reflexivity|]. split; [apply app_ne|]. split; [exact Ha|]. split; [exact L1|]. rewrite firstn_app.
      replace (x - length (render (a ++ b)))%nat with 0%nat by lia. rewrite app_nil_r. exact L2.
    + exists p, [c]. split; [reflexivity|]. split; [discriminate|]. split; [intros ->; cbn in H; lia|]. split; [symmetry; exact H|].
      rewrite H, firstn_app, firstn_all, Nat.sub_diag, app_nil_r. reflexivity.
    + exfalso. rewrite app_nth2 in E by lia. destruct (x - length (render p))%nat as [|y] eqn:Ey; [lia|]. cbn [nth] in E.
      destruct (Nat.lt_ge_cases y (length c)) as [Y|Y].
      * apply (proj1 (proj2 (Forall_inv Fc))). change 47 with slash. rewrite <- E. apply nth_In. exact Y.
      * rewrite nth_overflow in E by exact Y. discriminate.
Qed.
Lemma render_app (a b : path) : render (a ++ b) = render a ++ render b.
Proof. apply flat_map_app. Qed.
Lemma slash_there (a b : path) : b <> [] -> nth (length (render a)) (render (a ++ b)) 0 = slash.
Proof.
  intro H. destruct b as [|c b]; [congruence|]. rewrite render_app. rewrite app_nth2 by apply Nat.le_refl. rewrite Nat.sub_diag. reflexivity.
Qed.
Lemma render_shorter (a b : path) : b <> [] -> (length (render a) < length (render (a ++ b)))%nat.
Proof.
  intro H. destruct b as [|c b]; [congruence|]. rewrite render_app, app_length. change (render (c :: b)) with (47 :: c ++ render b). cbn [length]. lia.
Qed.
Lemma render_inj_len (p a b a' b' : path) : p = a ++ b -> p = a' ++ b' -> length (render a) = length (render a') -> a = a'.
Proof.
  intros E E' L. assert (X : forall (u v : path) w, u = v ++ w -> length (render u) = length (render v) -> u = v).
  { intros u v w -> Y. destruct w as [|c w]; [apply app_nil_r|]. pose proof (render_shorter v (c :: w) ltac:(discriminate)). lia. }
  rewrite E in E'. destruct (app_eq_app _ _ _ _ E') as [l [[-> _]|[-> _]]]; [apply (X _ a' l)|symmetry; apply (X _ a l)]; auto.
Qed.

(** ** Several processes *)
Section Race.
Variable tops : list path.
Hypothesis Tops : forall p, In p tops -> p <> [] /\ Forall fname p.

Definition wanted (q : path) : Prop := exists p, In p tops /\ under q p.

(** What a process that makes [p] has done *)
Definition doing (t : tree) (p : path) (pr : mproc) : Prop :=
  match pr with
  | MAt d x => d = render p /\ (0 < x)%nat /\ forall a b, p = a ++ b -> b <> [] -> (length (render a) < x)%nat -> lookup t a = Some KDir
  | MEnd _ => forall a b, p = a ++ b -> lookup t a = Some KDir
  end.

Record good (t0 t : tree) (ps : list mproc) : Prop := {
  g_want : forall q, wanted q -> lookup t q = None \/ lookup t q = Some KDir;
  g_keep : forall q, lookup t0 q <> None -> lookup t q = lookup t0 q;
  g_do : forall i p pr, nth_error tops i = Some p -> nth_error ps i = Some pr -> doing t p pr;
  g_new : forall i p, nth_error tops i = Some p -> nth_error ps i = Some (MEnd true) -> lookup t0 p = None;
  g_one : forall i j p, nth_error tops i = Some p -> nth_error tops j = Some p -> nth_error ps i = Some (MEnd true) -> nth_error ps j = Some (MEnd true) -> i = j
}.

Lemma doing_more t t' p pr : (forall q, lookup t q = Some KDir -> lookup t' q = Some KDir) -> doing t p pr -> doing t' p pr.
Proof.
  intro H. destruct pr as [d x|b]; cbn [doing].
  - intros (E & X & D). repeat (split; [assumption|]). intros a b E1 Hb L. apply H, (D a b E1 Hb L).
  - intros D a c E. apply H, (D a c E).
Qed.

(** One round *)
Lemma round t p pr t' pr' : p <> [] -> Forall fname p -> (forall q, under q p -> lookup t q = None \/ lookup t q = Some KDir) -> doing t p pr -> madvance t pr = Some (t', pr') ->
  doing t' p pr' /\
  (forall q, lookup t' q = lookup t q \/ (lookup t q = None /\ lookup t' q = Some KDir /\ under q p /\ (q = p -> pr' = MEnd true))) /\
  (pr' = MEnd true -> lookup t p = None).
Proof.
  intros Hp F K D A. destruct pr as [d x|b]; [|discriminate]. cbn [doing] in D. destruct D as (-> & Hx & D). cbn [madvance] in A.
  destruct (Nat.ltb_spec x (length (render p))) as [Lx|Lx].
  - injection A as <- <-. destruct (N.eqb_spec (nth x (render p) 0) slash) as [E|E].
    + destruct (slash_at p x F Hx E) as (a & b & Ep & Hb & Ha & L1 & L2). rewrite L2.
      assert (Fa : Forall fname a) by (rewrite Ep in F; apply Forall_app in F; exact (proj1 F)).
      assert (Wa : way t a). { intros u v Eu Hv. apply (D u (v ++ b)); [rewrite Ep, Eu, app_assoc; reflexivity|destruct v; [congruence|discriminate]|]. rewrite <- L1, Eu. apply render_shorter. exact Hv. }
      destruct (mk_at t a Ha Fa Wa (K a ltac:(exists b; exact Ep))) as [(N1 & _ & Q)|(N1 & Q)].
      * split; [|split; [|discriminate]].
        -- cbn [doing]. split; [reflexivity|]. split; [lia|]. intros u v Eu Hv L. rewrite Q. destruct (path_dec a u) as [_|Hne]; [reflexivity|]. apply (D u v Eu Hv).
           assert (length (render u) <> x); [|lia]. intro X. apply Hne. symmetry. apply (render_inj_len p u v a b Eu Ep). congruence.
        -- intro q. rewrite Q. destruct (path_dec a q) as [<-|_]; [right|left; reflexivity]. split; [exact N1|]. split; [reflexivity|]. split; [exists b; exact Ep|].
           intro X. exfalso. rewrite X in Ep. apply (f_equal (@length bytes)) in Ep. rewrite app_length in Ep. destruct b; [congruence|cbn in Ep; lia].
      * rewrite Q. cbn [fst]. split; [|split; [left; reflexivity|discriminate]]. cbn [doing]. split; [reflexivity|]. split; [lia|]. intros u v Eu Hv L.
        destruct (Nat.eq_dec (length (render u)) x) as [X|X]; [|apply (D u v Eu Hv); lia]. rewrite (render_inj_len p u v a b Eu Ep) by congruence. exact N1.
    + split; [|split; [left; reflexivity|discriminate]]. cbn [doing]. split; [reflexivity|]. split; [lia|]. intros u v Eu Hv L. apply (D u v Eu Hv).
      assert (length (render u) <> x); [|lia]. intro X. apply E. rewrite <- X, Eu. apply slash_there. exact Hv.
  - injection A as <- <-. assert (Wp : way t p). { intros u v Eu Hv. apply (D u v Eu Hv). pose proof (render_shorter u v Hv) as X. rewrite <- Eu in X. lia. }
    destruct (mk_at t p Hp F Wp (K p ltac:(exists []; rewrite app_nil_r; reflexivity))) as [(N1 & S1 & Q)|(N1 & Q)].
    + rewrite S1. split; [|split; [|intros _; exact N1]].
      * cbn [doing]. intros a b E. rewrite Q. destruct (path_dec p a) as [_|Hne]; [reflexivity|]. apply (Wp a b E). intros ->. rewrite app_nil_r in E. congruence.
      * intro q. rewrite Q. destruct (path_dec p q) as [<-|_]; [right|left; reflexivity]. split; [exact N1|]. split; [reflexivity|]. split; [exists []; rewrite app_nil_r; reflexivity|reflexivity].
    + rewrite Q. cbn [fst snd]. split; [|split; [left; reflexivity|discriminate]]. cbn [doing]. intros a b E. destruct b as [|c b]; [rewrite app_nil_r in E; subst a; exact N1|].
      apply (Wp a (c :: b) E). discriminate.
Qed.

Lemma in_wanted i p q : nth_error tops i = Some p -> under q p -> wanted q.
Proof. intros E U. exists p. split; [exact (nth_error_In _ _ E)|exact U]. Qed.

Lemma good_own t0 t ps i pr t' pr' : good t0 t ps -> length ps = length tops -> nth_error ps i = Some pr -> madvance t pr = Some (t', pr') -> good t0 t' (upd ps i pr').
Proof.
  intros G Len Ei A. assert (Hi : (i < length ps)%nat) by (apply nth_error_Some; congruence). rewrite Len in Hi. apply nth_error_Some in Hi.
  destruct (nth_error tops i) as [p|] eqn:Ep; [clear Hi|congruence]. destruct (Tops p (nth_error_In _ _ Ep)) as (Hp & Fp).
  destruct (round t p pr t' pr' Hp Fp) as (D & C & T); [intros q U; apply (g_want _ _ _ G), (in_wanted i p q Ep U)|exact (g_do _ _ _ G i p pr Ep Ei)|exact A|].
  assert (Mono : forall q, lookup t q = Some KDir -> lookup t' q = Some KDir) by (intros q X; destruct (C q) as [Y|(Y & _)]; congruence).
  constructor.
  - intros q W. destruct (C q) as [Y|(_ & Y & _)]; [rewrite Y; exact (g_want _ _ _ G q W)|right; exact Y].
  - intros q W. pose proof (g_keep _ _ _ G q W). destruct (C q) as [Y|(Y & _)]; congruence.
  - intros j r x Er Ex. destruct (Nat.eq_dec i j) as [<-|Hne].
    + rewrite upd_nth_same in Ex by (apply nth_error_Some; congruence). injection Ex as <-. rewrite Ep in Er. injection Er as <-. exact D.
    + rewrite upd_nth_other in Ex by exact Hne. apply (doing_more t t' r x Mono), (g_do _ _ _ G j r x Er Ex).
  - intros j r Er Ex. destruct (Nat.eq_dec i j) as [<-|Hne].
    + rewrite upd_nth_same in Ex by (apply nth_error_Some; congruence). injection Ex as Ex. rewrite Ep in Er. injection Er as <-. specialize (T Ex).
      destruct (lookup t0 p) eqn:L0; [|reflexivity]. rewrite (g_keep _ _ _ G p) in T by congruence. congruence.
    + rewrite upd_nth_other in Ex by exact Hne. exact (g_new _ _ _ G j r Er Ex).
  - assert (Two : forall j r, i <> j -> nth_error tops i = Some r -> nth_error tops j = Some r -> pr' = MEnd true -> nth_error ps j = Some (MEnd true) -> False).
    { intros j r Hne Er Ej X Y. rewrite Ep in Er. injection Er as <-. specialize (T X). pose proof (g_do _ _ _ G j p _ Ej Y) as Z. cbn [doing] in Z.
      rewrite (Z p []) in T by (rewrite app_nil_r; reflexivity). discriminate. }
    intros j k r Ej Ek Xj Xk. destruct (Nat.eq_dec i j) as [<-|Nj]; destruct (Nat.eq_dec i k) as [<-|Nk]; try reflexivity.
    + exfalso. rewrite upd_nth_same in Xj by (apply nth_error_Some; congruence). rewrite upd_nth_other in Xk by exact Nk. injection Xj as Xj. eapply Two; eauto.
    + exfalso. rewrite upd_nth_same in Xk by (apply nth_error_Some; congruence). rewrite upd_nth_other in Xj by exact Nj. injection Xk as Xk. eapply (Two j); eauto.
    + rewrite upd_nth_other in Xj by exact Nj. rewrite upd_nth_other in Xk by exact Nk. exact (g_one _ _ _ G j k r Ej Ek Xj Xk).
Qed.

Lemma good_other t0 t ps t' other : growing wanted other -> good t0 t ps -> other t t' -> good t0 t' ps.
Proof.
  intros Gr G O. pose proof (Gr t t' O) as C.
  constructor.
  - intros q W. destruct (C q) as [Y|(_ & Y)]; [rewrite Y; exact (g_want _ _ _ G q W)|right; exact (Y W)].
  - intros q W. pose proof (g_keep _ _ _ G q W). destruct (C q) as [Y|(Y & _)]; congruence.
  - intros i p pr Ep Ei. apply (doing_more t t'); [|exact (g_do _ _ _ G i p pr Ep Ei)]. intros q X. destruct (C q) as [Y|(Y & _)]; congruence.
  - exact (g_new _ _ _ G).
  - exact (g_one _ _ _ G).
Qed.

Lemma mrun_len other x y : mrun other x y -> length (snd y) = length (snd x).
Proof. induction 1; cbn [snd] in *; rewrite ?upd_length; congruence. Qed.

Lemma mrun_good other t0 ps0 : growing wanted other -> good t0 t0 ps0 -> length ps0 = length tops ->
  forall y, mrun other (t0, ps0) y -> good t0 (fst y) (snd y).
Proof.
  intros Gr G0 Len y R. remember (t0, ps0) as x eqn:Ex. induction R; subst; cbn [fst snd] in *.
  - exact G0.
  - specialize (IHR eq_refl). pose proof (mrun_len _ _ _ R) as L. cbn [snd] in L. eapply good_own; eauto. congruence.
  - eapply good_other; eauto.
Qed.

(** Who made what, if nobody else is there *)
Definition made_by (t0 t : tree) (ps : list mproc) : Prop := forall q, lookup t q <> lookup t0 q ->
  (exists i, nth_error tops i = Some q /\ nth_error ps i = Some (MEnd true)) \/ (exists i c r, nth_error tops i = Some (q ++ c :: r)).

Lemma mrun_made t0 ps0 : good t0 t0 ps0 -> length ps0 = length tops -> forall y, mrun nobody (t0, ps0) y -> made_by t0 (fst y) (snd y).
Proof.
  intros G0 Len y R. remember (t0, ps0) as x eqn:Ex. induction R; subst; cbn [fst snd] in *.
  - intros q H. congruence.
  - specialize (IHR eq_refl). pose proof (mrun_len _ _ _ R) as L. cbn [snd] in L.
    assert (G : good t0 t ps). { apply (mrun_good nobody t0 ps0) with (y := (t, ps)); try assumption. intros ? ? []. }
    assert (Hi : (i < length ps)%nat) by (apply nth_error_Some; congruence). rewrite L, Len in Hi. apply nth_error_Some in Hi.
    destruct (nth_error tops i) as [p|] eqn:Ep; [clear Hi|congruence]. destruct (Tops p (nth_error_In _ _ Ep)) as (Hp & Fp).
    destruct (round t p pr t' pr' Hp Fp) as (D & C & T); [intros q U; apply (g_want _ _ _ G), (in_wanted i p q Ep U)|exact (g_do _ _ _ G i p pr Ep H)|assumption|].
    intros q Hq. destruct (C q) as [Y|(Y1 & Y2 & [r U] & Y3)].
    + rewrite Y in Hq. destruct (IHR q Hq) as [(j & Ej & Xj)|X]; [left|right; exact X]. exists j. split; [exact Ej|].
      rewrite upd_nth_other; [exact Xj|]. intros ->. rewrite H in Xj. injection Xj as ->. discriminate.
    + destruct r as [|c r]; [rewrite app_nil_r in U; subst q|right; exists i, c, r; rewrite <- U; exact Ep]. left. exists i. split; [exact Ep|].
      rewrite upd_nth_same by (apply nth_error_Some; congruence). rewrite Y3 by reflexivity. reflexivity.
  - contradiction.
Qed.
End Race.

(** ** Runs by a schedule *)
Fixpoint sched (l : list nat) (t : tree) (ps : list mproc) : option (tree * list mproc) :=
  match l with
  | [] => Some (t, ps)
  | i :: r => match nth_error ps i with
      | Some pr => match madvance t pr with Some (t', pr') => sched r t' (upd ps i pr') | None => None end
      | None => None end
  end.
Lemma sched_run other x l : forall t ps y, mrun other x (t, ps) -> sched l t ps = Some y -> mrun other x y.
Proof.
  induction l as [|i l IH]; intros t ps y R E; cbn [sched] in E; [injection E as <-; exact R|].
  destruct (nth_error ps i) as [pr|] eqn:Ei; [|discriminate]. destruct (madvance t pr) as [[t' pr']|] eqn:A; [|discriminate].
  eapply IH; [|exact E]. eapply mr_own; eauto.
Qed.
