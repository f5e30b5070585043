(** Rmdir one system call at a time. *)
From Verif Require Import Base S_Path S_Tree S_DirRace M_Path M_Dir M_DirRace P_Path P_Dir.
Open Scope N_scope.

Section P.
Variable sgn : bool.
Variable cwd : bytes.
Variables g2 g3 gr : bytes -> bytes.

(** ** Alone it is Rmdir *)
Lemma alone_entries dp dm d names : (forall t d k, alone t (dp d k) = let* t1 := dm t d in alone t1 k) ->
  forall t k, alone t (entries_p dp d names k) = let* t1 := each_entry dm d names t in alone t1 k.
Proof.
  intros H. induction names as [|n r IH]; intros t k; cbn [entries_p each_entry]; [reflexivity|].
  destruct (_ <? _)%nat; [reflexivity|].
  destruct (list_eq_dec N.eq_dec n [46]); [apply IH|]. destruct (list_eq_dec N.eq_dec n [46; 46]); [apply IH|].
  cbv zeta. cbn [alone]. destruct (lstat t (d ++ slash :: n)) as [[|g|]|]; [cbn [alone]; apply IH|cbn [alone]; apply IH| |apply IH].
  rewrite H. destruct (dm t (d ++ slash :: n)) as [t1| |]; cbn [bind]; [|reflexivity|reflexivity]. cbn [alone]. apply IH.
Qed.

Lemma alone_recurse fuel : forall t d k, alone t (recurse_p sgn cwd g2 g3 gr fuel d k) = let* t1 := Rmdir_RecurseInternal sgn cwd g2 g3 gr fuel t d in alone t1 k.
Proof.
  induction fuel as [|g IH]; intros t d k; cbn [recurse_p Rmdir_RecurseInternal]; [reflexivity|].
  destruct (_ <=? _)%nat; [reflexivity|]. unfold dir_open.
  destruct (absname sgn cwd g2 g3 gr d) as [[s|]| |]; cbn [bind alone]; try reflexivity.
  destruct (opendir t s) as [names|]; [|reflexivity]. apply alone_entries. exact IH.
Qed.

Lemma alone_rmdir fuel t name recursive : alone t (Rmdir_p sgn cwd g2 g3 gr fuel name recursive) = Rmdir sgn cwd g2 g3 gr fuel t name recursive.
Proof.
  unfold Rmdir_p, Rmdir. destruct (absname sgn cwd g2 g3 gr name) as [[d|]| |]; cbn [bind alone]; try reflexivity. cbv zeta.
  assert (L : forall t1, alone t1 (CRmdir d (fun b => CDone b)) = Ok (rmdir t1 d)) by (intro t1; cbn [alone]; destruct (rmdir t1 d); reflexivity).
  destruct recursive; [|apply L]. cbn [alone]. destruct (lstat t d) as [[|g|]|]; try apply L;
    (rewrite alone_recurse; destruct (Rmdir_RecurseInternal sgn cwd g2 g3 gr fuel t d); cbn [bind]; [apply L|reflexivity|reflexivity]).
Qed.

(** ** Among others that make no links *)
Section Safe.
Variable p : path.

(** Everything on the way to [q] is known not to be a link. *)
Definition spot (NL : path -> Prop) (q : path) : Prop :=
  under p q /\ q <> [] /\ Forall fname q /\ forall a b, q = a ++ b -> a <> [] -> b <> [] -> NL a.
Definition seen (NL : path -> Prop) (q : path) (o : option kind) : path -> Prop :=
  match o with Some KDir | Some KFile => fun x => x = q \/ NL x | _ => NL end.

Fixpoint Safe (c : prog) (NL : path -> Prop) : Prop :=
  match c with
  | CLstat s k => exists q, s = render q /\ spot NL q /\ forall o, Safe (k o) (seen NL q o)
  | COpendir _ k => Safe (k None) NL /\ forall l, Forall listed l -> Safe (k (Some l)) NL
  | CUnlink s k | CRmdir s k => exists q, s = render q /\ spot NL q /\ forall b, Safe (k b) NL
  | _ => True
  end.

Lemma spot_more (NL NL' : path -> Prop) q : (forall x, NL x -> NL' x) -> spot NL q -> spot NL' q.
Proof. intros H (a & b & c & d). repeat split; auto. intros x y E X Y. apply H. eapply d; eauto. Qed.
Lemma Safe_more c : forall NL NL' : path -> Prop, (forall x, NL x -> NL' x) -> Safe c NL -> Safe c NL'.
Proof.
  induction c as [ | | |s k IH|s k IH|s k IH|s k IH]; cbn [Safe]; intros NL NL' H; auto.
  - intros (q & E & S1 & S2). exists q. split; [exact E|]. split; [eapply spot_more; eauto|]. intro o. eapply IH; [|apply S2].
    unfold seen. destruct o as [[| |]|]; try exact H; intros x [X|X]; auto.
  - intros [S1 S2]. split; [eapply IH; eauto|]. intros l Fl. eapply IH; [exact H|]. auto.
  - intros (q & E & S1 & S2). exists q. split; [exact E|]. split; [eapply spot_more; eauto|]. intro b. eapply IH; eauto.
  - intros (q & E & S1 & S2). exists q. split; [exact E|]. split; [eapply spot_more; eauto|]. intro b. eapply IH; eauto.
Qed.

Lemma spot_child (NL : path -> Prop) q n : spot NL q -> NL q -> fname n -> spot NL (q ++ [n]).
Proof.
  intros ((r & ->) & B & C & D) K F. split; [exists (r ++ [n]); now rewrite app_assoc|]. split; [apply app_ne|]. split; [apply Forall_app; auto|].
  intros a b E Ha Hb. destruct (exists_last Hb) as (b' & y & ->). rewrite app_assoc in E. apply app_inj_tail in E as [E _].
  destruct b' as [|z b']; [rewrite app_nil_r in E; subst a; exact K|]. eapply D; [exact E|exact Ha|discriminate].
Qed.

Lemma entries_safe dp names : (forall (NL : path -> Prop) q k, spot NL q -> NL q -> Safe k NL -> Safe (dp (render q) k) NL) -> Forall listed names ->
  forall (NL : path -> Prop) q k, spot NL q -> NL q -> Safe k NL -> Safe (entries_p dp (render q) names k) NL.
Proof.
  intros H. induction names as [|n r IH]; intros Fn NL q k Sq Kq Sk; cbn [entries_p]; [exact Sk|].
  apply Forall_cons_iff in Fn as [Ln Fr]. destruct (_ <? _)%nat; [exact Sk|].
  destruct (list_eq_dec N.eq_dec n [46]) as [|N1]; [now apply IH|]. destruct (list_eq_dec N.eq_dec n [46; 46]) as [|N2]; [now apply IH|].
  destruct Ln as [X|[X|Fn]]; [contradiction|contradiction|]. cbv zeta. cbn [Safe].
  assert (S1 : spot NL (q ++ [n])) by (apply spot_child; assumption).
  assert (E1 : render q ++ slash :: n = render (q ++ [n])) by (symmetry; apply render_add).
  rewrite E1. exists (q ++ [n]). split; [reflexivity|]. split; [exact S1|].
  intros [[|g|]|]; cbn [seen Safe].
  - exists (q ++ [n]). split; [reflexivity|]. split; [eapply spot_more; [|exact S1]; auto|]. intros _. eapply Safe_more with NL; [auto|]. now apply IH.
  - exists (q ++ [n]). split; [reflexivity|]. split; [exact S1|]. intros _. now apply IH.
  - apply H; [eapply spot_more; [|exact S1]; auto|auto|]. cbn [Safe]. exists (q ++ [n]). split; [reflexivity|]. split; [eapply spot_more; [|exact S1]; auto|].
    intros _. eapply Safe_more with NL; [auto|]. now apply IH.
  - now apply IH.
Qed.

Lemma recurse_safe fuel : forall (NL : path -> Prop) q k, spot NL q -> NL q -> Safe k NL -> Safe (recurse_p sgn cwd g2 g3 gr fuel (render q) k) NL.
Proof.
  induction fuel as [|g IH]; intros NL q k Sq Kq Sk; cbn [recurse_p]; [exact I|].
  destruct (_ <=? _)%nat; [exact Sk|]. destruct (absname sgn cwd g2 g3 gr (render q)) as [[s|]| |]; cbn [Safe]; auto.
  split; [exact Sk|]. intros l Fl. apply entries_safe; auto.
Qed.

(** ** Steps *)
Definition Inv (t : tree) (NL : path -> Prop) : Prop :=
  keys_ok t /\ forall a, NL a -> (under a p \/ under p a) /\ forall g, lookup t a <> Some (KLink g).

Lemma walk_plain t links : forall q cur, Forall fname q -> (forall a b, q = a ++ b -> a <> [] -> b <> [] -> forall g, lookup t (cur ++ a) <> Some (KLink g)) ->
  walk t links cur q = None \/ walk t links cur q = Some (cur ++ q).
Proof.
  induction q as [|c q IH]; intros cur F H; [right; destruct links; cbn; now rewrite app_nil_r|].
  apply Forall_cons_iff in F as [Fc F]. rewrite walk_unfold.
  destruct Fc as (_ & _ & _ & N1 & N2).
  destruct (list_eq_dec N.eq_dec c [46]); [contradiction|]. destruct (list_eq_dec N.eq_dec c [46; 46]); [contradiction|].
  destruct q as [|c2 q]; [right; reflexivity|].
  destruct (lookup t (cur ++ [c])) as [[|g|]|] eqn:L; auto.
  - exfalso. apply (H [c] (c2 :: q) eq_refl ltac:(discriminate) ltac:(discriminate) g). exact L.
  - destruct (IH (cur ++ [c]) F) as [E|E].
    + intros a b E A B g. rewrite <- app_assoc. apply (H (c :: a) b); [cbn; now rewrite E|discriminate|exact B].
    + left. exact E.
    + right. rewrite E, <- app_assoc. reflexivity.
Qed.

Lemma place_spot t NL q : Inv t NL -> spot NL q -> place_of t (render q) = None \/ place_of t (render q) = Some q.
Proof.
  intros [_ H] (_ & Ne & F & D). pose proof (render_ne q Ne) as R. unfold place_of. destruct (render q) as [|x y] eqn:E; [congruence|]. rewrite <- E, (components_render q F).
  apply walk_plain; [exact F|]. intros a b Eq A B g. apply (H a (D a b Eq A B)).
Qed.

Lemma Inv_sub t t' NL : sub t' t -> incl t' t -> Inv t NL -> Inv t' NL.
Proof.
  intros S1 S2 [K H]. split; [exact (keys_incl _ _ S2 K)|]. intros a A. destruct (H a A) as [X Y]. split; [exact X|].
  intros g L. destruct (S1 a) as [Z|Z]; [congruence|]. rewrite Z in L. exact (Y g L).
Qed.

Lemma unlink_incl t d : incl (fst (unlink t d)) t.
Proof. unfold unlink. destruct (place_of t d); [|apply incl_refl]. destruct (lookup t p0) as [[| |]|]; try apply incl_refl; apply incl_del. Qed.
Lemma rmdir_incl t d : incl (fst (rmdir t d)) t.
Proof. unfold rmdir. destruct (place_of t d) as [[|c r]|]; try apply incl_refl. destruct (lookup t (c :: r)) as [[| |]|]; try apply incl_refl. destruct (_ =? _)%nat; [apply incl_del|apply incl_refl]. Qed.

Lemma unlink_only t NL q x : Inv t NL -> spot NL q -> lookup (fst (unlink t (render q))) x <> lookup t x -> x = q.
Proof.
  intros I Sq. pose proof Sq as (_ & Ne & _). unfold unlink. destruct (place_spot t NL q I Sq) as [-> | ->]; cbn [fst]; [congruence|].
  destruct (lookup t q) as [[| |]|]; cbn [fst]; try congruence; rewrite lookup_del by exact Ne; destruct (path_dec q x); congruence.
Qed.
Lemma rmdir_only t NL q x : Inv t NL -> spot NL q -> lookup (fst (rmdir t (render q))) x <> lookup t x -> x = q.
Proof.
  intros I Sq. pose proof Sq as (_ & Ne & _). unfold rmdir. destruct (place_spot t NL q I Sq) as [-> | ->]; cbn [fst]; [congruence|].
  destruct q as [|c r]; [congruence|]. destruct (lookup t (c :: r)) as [[| |]|]; cbn [fst]; try congruence.
  destruct (_ =? _)%nat; cbn [fst]; [|congruence]. rewrite lookup_del by exact Ne. destruct (path_dec (c :: r) x); congruence.
Qed.

Lemma own_ok t c t' c' NL : Inv t NL -> Safe c NL -> own (t, c) (t', c') ->
  (exists NL', Inv t' NL' /\ Safe c' NL') /\ forall x, lookup t' x <> lookup t x -> under p x.
Proof.
  intros I Sc St. inversion St as [t0 s k E1 E2|t0 s k E1 E2|t0 s k E1 E2|t0 s k E1 E2]; subst; cbn [Safe] in Sc.
  - destruct Sc as (q & -> & Sq & Sk). split; [|congruence]. exists (seen NL q (lstat t' (render q))). split; [|apply Sk].
    destruct I as [K H]. split; [exact K|]. unfold seen, lstat. destruct (place_spot t' NL q (conj K H) Sq) as [-> | ->]; [exact H|].
    destruct (lookup t' q) as [[|g|]|] eqn:L; try exact H; (intros a [->|A]; [|exact (H a A)]); (split; [right; apply Sq|intros g; congruence]).
  - destruct Sc as [Sn Sl]. split; [|congruence]. exists NL. split; [exact I|].
    destruct (opendir t' s) as [l|] eqn:E; [|exact Sn]. apply Sl. eapply opendir_names; [apply I|exact E].
  - destruct Sc as (q & -> & Sq & Sk). split.
    + exists NL. split; [|apply Sk]. eapply Inv_sub; [apply unlink_sub|apply unlink_incl|exact I].
    + intros x Hx. rewrite (unlink_only t NL q x I Sq Hx). apply Sq.
  - destruct Sc as (q & -> & Sq & Sk). split.
    + exists NL. split; [|apply Sk]. eapply Inv_sub; [apply rmdir_sub|apply rmdir_incl|exact I].
    + intros x Hx. rewrite (rmdir_only t NL q x I Sq Hx). apply Sq.
Qed.

Lemma rrun_ok other x y : calm p other -> rrun other x y -> forall NL, Inv (fst x) NL -> Safe (snd x) NL -> exists NL', Inv (fst y) NL' /\ Safe (snd y) NL'.
Proof.
  intros C R. induction R as [x|x y z R IH St|x t c t' R IH O]; intros NL I Sc; [eauto| |].
  - destruct (IH NL I Sc) as (NL' & I' & S'). destruct y as [t c], z as [t' c']. cbn [fst snd] in *. exact (proj1 (own_ok _ _ _ _ _ I' S' St)).
  - destruct (IH NL I Sc) as (NL' & I' & S'). cbn [fst snd] in *. exists NL'. split; [|exact S'].
    destruct I' as [K H]. destruct (C t t' O K) as [K' H']. split; [exact K'|]. intros a A. destruct (H a A) as [X Y]. split; [exact X|].
    intros g L. destruct (H' a g X L) as [g' L']. exact (Y g' L').
Qed.
End Safe.
End P.

(** The next system call, computed. *)
Definition next (x : tree * prog) : option (tree * prog) :=
  let t := fst x in
  match snd x with
  | CLstat s k => Some (t, k (lstat t s))
  | COpendir s k => Some (t, k (opendir t s))
  | CUnlink s k => Some (fst (unlink t s), k (snd (unlink t s)))
  | CRmdir s k => Some (fst (rmdir t s), k (snd (rmdir t s)))
  | _ => None
  end.
Lemma next_own x y : next x = Some y -> own x y.
Proof. destruct x as [t c]. destruct c; cbn [next fst snd]; intro E; try discriminate; injection E as <-; constructor. Qed.
Fixpoint nexts (n : nat) (x : tree * prog) : option (tree * prog) :=
  match n with O => Some x | S m => match nexts m x with Some y => next y | None => None end end.
Lemma nexts_run other z n : forall x y, rrun other z x -> nexts n x = Some y -> rrun other z y.
Proof.
  induction n as [|n IH]; intros x y R; cbn [nexts]; [intro E; injection E as <-; exact R|].
  destruct (nexts n x) as [w|] eqn:E; [|discriminate]. intro N. eapply rr_own; [eapply IH; eauto|]. apply next_own. exact N.
Qed.
