(** Proofs about the places path names denote: C133-C135. *)
From Verif Require Import Base S_Utf8 S_Path S_Tree S_Where M_Path M_Dir M_Where P_MixedVar P_Path P_Dir.
Open Scope N_scope.

Definition ndot (c : bytes) : bool := if list_eq_dec N.eq_dec c [46] then false else true.
Definition keep (c : bytes) : bool := nonempty c && ndot c.

Lemma filter_idem {A} (f : A -> bool) l : filter f (filter f l) = filter f l.
Proof. induction l as [|x l IH]; [reflexivity|]. cbn. destruct (f x) eqn:E; [cbn; rewrite E, IH; reflexivity|exact IH]. Qed.

Lemma last_kept (r : path) : r <> [] -> last r [] <> [46] -> filter ndot r <> [].
Proof.
  intros H L. destruct (exists_last H) as (a & z & ->). rewrite last_last in L. rewrite filter_app. cbn. unfold ndot at 2.
  destruct (list_eq_dec N.eq_dec z [46]); [congruence|]. destruct (filter ndot a); discriminate.
Qed.

Lemma last_filter (r : path) : r <> [] -> last r [] <> [46] -> last (filter ndot r) [] = last r [].
Proof.
  intros H L. destruct (exists_last H) as (a & z & ->). rewrite last_last in *. rewrite filter_app. cbn. unfold ndot at 2.
  destruct (list_eq_dec N.eq_dec z [46]); [congruence|]. apply last_last.
Qed.

Lemma last_app_ne (a r : path) : r <> [] -> last (a ++ r) [] = last r [].
Proof. intro H. destruct (exists_last H) as (b & z & ->). rewrite app_assoc, !last_last. reflexivity. Qed.

Lemma walk_step t links (cur : path) (c : bytes) (r : path) : c <> [46] -> c <> [46; 46] -> r <> [] -> walk t links cur (c :: r) =
  match lookup t (cur ++ [c]) with
  | Some KDir => walk t links (cur ++ [c]) r
  | Some (KLink tgt) => match links with O => None | S l => walk t l [] (tgt ++ r) end
  | _ => None
  end.
Proof.
  intros A B H. rewrite walk_unfold. destruct (list_eq_dec N.eq_dec c [46]); [congruence|]. destruct (list_eq_dec N.eq_dec c [46; 46]); [congruence|].
  destruct r; [congruence|reflexivity].
Qed.

Lemma walk_up t links cur r : walk t links cur ([46; 46] :: r) = walk t links (removelast cur) r.
Proof. rewrite walk_unfold. reflexivity. Qed.

Lemma walk_dot t links cur r : walk t links cur ([46] :: r) = walk t links cur r.
Proof. rewrite walk_unfold. reflexivity. Qed.

Lemma walk_nil t links cur : walk t links cur [] = Some cur.
Proof. destruct links; reflexivity. Qed.

Lemma walk_one t links (cur : path) (c : bytes) : c <> [46] -> c <> [46; 46] -> walk t links cur [c] = Some (cur ++ [c]).
Proof.
  intros A B. rewrite walk_unfold. destruct (list_eq_dec N.eq_dec c [46]); [congruence|]. destruct (list_eq_dec N.eq_dec c [46; 46]); [congruence|]. reflexivity.
Qed.

(** "." on the way changes nothing. *)
Lemma walk_dots t : forall links (rest : path) (cur : path), last rest [] <> [46] -> walk t links cur rest = walk t links cur (filter ndot rest).
Proof.
  induction links as [links IHl] using lt_wf_ind. induction rest as [|c r IH]; intros cur L; [reflexivity|].
  destruct (list_eq_dec (list_eq_dec N.eq_dec) r []) as [->|Hr].
  { cbn [filter]. unfold ndot. destruct (list_eq_dec N.eq_dec c [46]); [cbn in L; congruence|reflexivity]. }
  assert (Lr : last r [] <> [46]) by (rewrite (last_app_ne [c] r Hr : last (c :: r) [] = _) in L; exact L).
  cbn [filter]. unfold ndot at 1. destruct (list_eq_dec N.eq_dec c [46]) as [->|Nc].
  - rewrite walk_dot. apply IH. exact Lr.
  - destruct (list_eq_dec N.eq_dec c [46; 46]) as [->|Nd].
    + rewrite !walk_up. apply IH. exact Lr.
    + pose proof (last_kept r Hr Lr) as K. rewrite !walk_step by assumption.
      destruct (lookup t (cur ++ [c])) as [[|tgt|]|]; try reflexivity.
      * destruct links as [|l]; [reflexivity|]. rewrite (IHl l) by (lia || (rewrite last_app_ne by exact Hr; exact Lr)).
        rewrite (IHl l ltac:(lia) (tgt ++ filter ndot r)) by (rewrite last_app_ne, last_filter by assumption; exact Lr).
        rewrite !filter_app, filter_idem. reflexivity.
      * apply IH. exact Lr.
Qed.

(** The way to a directory can be walked first. *)
Lemma walk_road t links : forall (st cur cs : path), Forall fname st -> cs <> [] -> (forall a b, st = a ++ b -> a <> [] -> lookup t (cur ++ a) = Some KDir) ->
  walk t links cur (st ++ cs) = walk t links (cur ++ st) cs.
Proof.
  induction st as [|c st IH]; intros cur cs F H R; [rewrite app_nil_r; reflexivity|].
  pose proof (Forall_inv F) as (_ & _ & _ & N1 & N2). cbn [app]. rewrite walk_step by (assumption || (destruct st; cbn; [exact H|discriminate])).
  rewrite (R [c] st eq_refl ltac:(discriminate)). rewrite IH; [rewrite <- app_assoc; reflexivity|exact (Forall_inv_tail F)|exact H|].
  intros a b -> Ha. rewrite <- app_assoc. apply (R (c :: a) b); [reflexivity|discriminate].
Qed.

Lemma road_walk t links (st cs : path) : Forall fname st -> cs <> [] -> road t st -> walk t links [] (st ++ cs) = walk t links st cs.
Proof. intros F H R. rewrite walk_road; [reflexivity|assumption..|]. intros a b E _. exact (R a b E). Qed.

Lemma text_resolve p : Forall fname p -> resolve [] (split (text_of p)) = p.
Proof.
  intro F. destruct p as [|c p]; [reflexivity|]. unfold text_of. pose proof (place_render [] (c :: p) F ltac:(discriminate)) as E. exact E.
Qed.

Lemma resolve_keep (cs : path) : forall st : path, ~ In [46; 46] cs -> resolve st cs = st ++ filter keep cs.
Proof.
  induction cs as [|c cs IH]; intros st H; [cbn; rewrite app_nil_r; reflexivity|].
  assert (H' : ~ In [46; 46] cs) by (intro X; apply H; right; exact X). cbn [resolve filter]. unfold keep at 1, ndot.
  destruct (list_eq_dec N.eq_dec c []) as [->|N0]; [apply IH; exact H'|]. destruct (list_eq_dec N.eq_dec c [46]) as [->|N1]; [apply IH; exact H'|].
  destruct (list_eq_dec N.eq_dec c [46; 46]) as [->|N2]; [exfalso; apply H; left; reflexivity|]. destruct c; [congruence|]. cbn [nonempty andb].
  rewrite IH by exact H'. rewrite <- app_assoc. reflexivity.
Qed.

(** The directory a name starts from. *)
Definition start (cwd : path) (n : bytes) : path := if hd 0 n =? 47 then [] else cwd.

Lemma place_start p n : Forall fname p -> place (text_of p) n = resolve (start p n) (split n).
Proof.
  intro F. unfold start. destruct (N.eqb_spec (hd 0 n) 47) as [E|E]; [|rewrite place_rel, text_resolve by assumption; reflexivity].
  destruct n as [|c n]; [discriminate|]. cbn in E. subst c. reflexivity.
Qed.

Lemma place_in_start t p n : n <> [] -> place_in t p n = walk t LINKS (start p n) (steps n).
Proof. intro H. destruct n; [congruence|]. reflexivity. Qed.

Lemma steps_keep n : filter ndot (steps n) = filter keep (split n).
Proof.
  unfold steps. induction (split n) as [|c l IH]; [reflexivity|]. cbn [map filter]. rewrite IH. destruct c as [|x c]; reflexivity.
Qed.

Definition inner (n : bytes) : Prop := last (split n) [] <> [] /\ last (split n) [] <> [46].

Lemma last_map (f : bytes -> bytes) (l : path) : l <> [] -> last (map f l) [] = f (last l []).
Proof. intro H. destruct (exists_last H) as (a & z & ->). rewrite map_app. cbn [map]. rewrite !last_last. reflexivity. Qed.

Lemma same_place t p n : Forall fname p -> road t p -> n <> [] -> ctext n -> ~ In [46; 46] (split n) -> inner n ->
  place_of t (render (place (text_of p) n)) = place_in t p n /\ place (text_of p) n <> [].
Proof.
  intros F R Hn Cn Up [I1 I2]. rewrite place_start by exact F. rewrite resolve_keep by exact Up.
  assert (K : filter keep (split n) <> []).
  { rewrite <- steps_keep. apply last_kept; [unfold steps; pose proof (split_ne n); destruct (split n); [congruence|discriminate]|].
    unfold steps. rewrite last_map by apply split_ne. destruct (last (split n) []) eqn:E; [congruence|exact I2]. }
  assert (Fn : Forall fname (filter keep (split n))).
  { pose proof (split_noslash n) as A. pose proof (split_ctext n Cn) as B. apply Forall_forall. intros c Hc. apply filter_In in Hc. destruct Hc as [Hc Kc].
    rewrite Forall_forall in A, B. specialize (A c Hc). specialize (B c Hc). unfold keep, ndot in Kc. apply andb_prop in Kc. destruct Kc as [K1 K2].
    destruct (list_eq_dec N.eq_dec c [46]) as [->|N1]; [discriminate|].
    split; [destruct c; [discriminate|discriminate]|]. split; [exact A|]. split; [exact B|]. split; [exact N1|]. intros ->. apply Up. exact Hc. }
  assert (Fs : Forall fname (start p n)) by (unfold start; destruct (_ =? _); [constructor|exact F]).
  assert (Rs : road t (start p n)) by (unfold start; destruct (_ =? _); [intros a b E; symmetry in E; apply app_eq_nil in E; destruct E as [-> _]; reflexivity|exact R]).
  split; [|intro X; apply app_eq_nil in X; destruct X; congruence].
  unfold place_of. destruct (render (start p n ++ filter keep (split n))) as [|x xs] eqn:Er.
  - exfalso. eapply render_ne; [|exact Er]. intro X. apply app_eq_nil in X. destruct X; congruence.
  - rewrite <- Er, components_render by (apply Forall_app; split; assumption). rewrite road_walk by assumption.
    rewrite place_in_start by exact Hn. rewrite (walk_dots t LINKS (steps n)).
    + rewrite steps_keep. reflexivity.
    + unfold steps. rewrite last_map by apply split_ne. destruct (last (split n) []) eqn:E; [congruence|exact I2].
Qed.

(** Without links, walking is resolving. *)
Lemma walk_linkless t : linkless t -> sound t -> forall links (cs cur p : path), Forall noslash cs -> ~ In [] cs -> Forall fname cur -> lookup t cur = Some KDir ->
  walk t links cur cs = Some p -> p = resolve cur cs /\ (p = [] \/ lookup t (removelast p) = Some KDir).
Proof.
  intros Hl So links. induction cs as [|c cs IH]; intros cur p Ns N0 F D E.
  - rewrite walk_nil in E. injection E as <-. split; [reflexivity|]. destruct cur as [|x cur]; [left; reflexivity|right].
    destruct (exists_last (l := x :: cur) ltac:(discriminate)) as (a & z & Ez). rewrite Ez in *. rewrite removelast_last. apply (proj2 So a z). rewrite D. discriminate.
  - assert (N0' : ~ In [] cs) by (intro X; apply N0; right; exact X). pose proof (Forall_inv_tail Ns) as Ns'.
    cbn [resolve]. destruct (list_eq_dec N.eq_dec c []) as [->|Nc]; [exfalso; apply N0; left; reflexivity|].
    destruct (list_eq_dec N.eq_dec c [46]) as [->|N1]; [rewrite walk_dot in E; exact (IH cur p Ns' N0' F D E)|].
    destruct (list_eq_dec N.eq_dec c [46; 46]) as [->|N2].
    + rewrite walk_up in E. apply (IH _ p Ns' N0'); [apply Forall_removelast; exact F| |exact E].
      destruct cur as [|x cur]; [reflexivity|]. destruct (exists_last (l := x :: cur) ltac:(discriminate)) as (a & z & Ez). rewrite Ez in *.
      rewrite removelast_last. apply (proj2 So a z). rewrite D. discriminate.
    + destruct (list_eq_dec (list_eq_dec N.eq_dec) cs []) as [->|Hc].
      * rewrite walk_one in E by assumption. injection E as <-. split; [reflexivity|]. right. rewrite removelast_last. exact D.
      * rewrite walk_step in E by assumption. destruct (lookup t (cur ++ [c])) as [[|tgt|]|] eqn:El; try discriminate; [exfalso; exact (Hl _ _ El)|].
        apply (IH _ p Ns' N0'); [|exact El|exact E]. apply Forall_app. split; [exact F|]. constructor; [|constructor].
        destruct (lookup_in t (cur ++ [c]) ltac:(rewrite El; discriminate)) as [X|[k Hk]]; [destruct (app_ne cur c X)|].
        destruct (proj1 So _ _ Hk) as [_ Fq]. apply Forall_app in Fq. exact (Forall_inv (proj2 Fq)).
Qed.

Lemma resolve_steps n : forall st, resolve st (steps n) = resolve st (split n).
Proof.
  unfold steps. induction (split n) as [|c l IH]; intro st; [reflexivity|]. cbn [map]. destruct c as [|x c]; [cbn; apply IH|]. cbn [resolve].
  repeat (destruct (list_eq_dec N.eq_dec _ _)); apply IH.
Qed.

Lemma linkless_place t p n q : linkless t -> sound t -> Forall fname p -> lookup t p = Some KDir -> ctext n ->
  place_in t p n = Some q -> q <> [] -> place (text_of p) n = q /\ place_of t (render q) = Some q.
Proof.
  intros Hl So F D Cn E Hq. destruct n as [|x n]; [discriminate|]. rewrite place_in_start in E by discriminate. remember (x :: n) as m.
  assert (Ns : Forall noslash (steps m)).
  { unfold steps. apply Forall_forall. intros c Hc. apply in_map_iff in Hc. destruct Hc as (d & <- & Hd). pose proof (split_noslash m) as A. rewrite Forall_forall in A.
    specialize (A d Hd). destruct d; [intros [X|[]]; discriminate|exact A]. }
  assert (N0 : ~ In [] (steps m)).
  { unfold steps. intro X. apply in_map_iff in X. destruct X as ([|y d] & Ed & _); discriminate. }
  destruct (walk_linkless t Hl So LINKS (steps m) (start p m) q Ns N0) as [Eq [X|P]]; try assumption; try congruence.
  - unfold start. destruct (_ =? _); [constructor|exact F].
  - unfold start. destruct (_ =? _); [reflexivity|exact D].
  - rewrite place_start by exact F. rewrite resolve_steps in Eq. split; [congruence|].
    assert (Fq : Forall fname q).
    { rewrite Eq. rewrite <- place_start by exact F. apply place_fname; [|exact Cn]. unfold text_of. destruct p as [|y p]; [repeat constructor|].
      unfold ctext, render. apply Forall_flat_map. eapply Forall_impl; [|exact F]. intros c (_ & _ & B & _). constructor; [split; reflexivity|exact B]. }
    apply place_way; [apply render_ne; exact Hq|apply components_render; exact Fq|exact Fq|].
    intros a b Eab Hb. destruct (exists_last Hb) as (b' & z & ->). rewrite app_assoc in Eab. rewrite Eab, removelast_last in P.
    exact (sound_road t _ So P a b' eq_refl).
Qed.

(** ** Physical paths *)
Lemma split_render q : Forall fname q -> split (render q) = [] :: q.
Proof.
  induction q as [|c q IH] using rev_ind; intro F; [reflexivity|]. apply Forall_app in F. destruct F as [F1 F2].
  pose proof (Forall_inv F2) as (_ & Ns & _). rewrite render_add, split_app, IH, split_one by assumption. reflexivity.
Qed.

Lemma steps_render q : Forall fname q -> steps (render q) = [46] :: q.
Proof.
  intro F. unfold steps. rewrite split_render by exact F. cbn [map]. f_equal. clear - F. induction q as [|c q IH]; [reflexivity|].
  pose proof (Forall_inv F) as (Hc & _). cbn [map]. rewrite IH by exact (Forall_inv_tail F). destruct c; [congruence|reflexivity].
Qed.

Lemma sound_fname t q : sound t -> lookup t q <> None -> Forall fname q.
Proof.
  intros So L. destruct (lookup_in t q L) as [->|[k Hk]]; [constructor|]. exact (proj2 (proj1 So _ _ Hk)).
Qed.

Lemma place_text t cwd q : sound t -> lookup t q <> None -> place_in t cwd (text_of q) = Some q.
Proof.
  intros So L. pose proof (sound_fname t q So L) as F. destruct q as [|c q]; [reflexivity|]. unfold text_of.
  rewrite place_in_start by (apply render_ne; discriminate). rewrite steps_render by exact F. rewrite walk_dot.
  change (start cwd (render (c :: q))) with (@nil bytes). apply (walk_way t LINKS (c :: q) []); [exact F|].
  intros a b E Hb. cbn [app]. apply (sound_parent t a So b); [rewrite <- E; exact L|exact Hb].
Qed.

Lemma follow_end t : forall links p q, follow t links p = Some q -> exists k, lookup t q = Some k /\ forall g, k <> KLink g.
Proof.
  induction links as [|l IH]; intros p q E; cbn [follow] in E; destruct (lookup t p) as [[|g|]|] eqn:L; try discriminate;
    try (injection E as <-; eexists; split; [exact L|discriminate]).
  destruct (walk t l [] g); [|discriminate]. exact (IH _ _ E).
Qed.

Lemma follow_self t links q k : lookup t q = Some k -> (forall g, k <> KLink g) -> follow t links q = Some q.
Proof. intros L H. destruct links; cbn [follow]; rewrite L; destruct k; try reflexivity; destruct (H target eq_refl). Qed.

Lemma text_ctext q : Forall fname q -> ctext (text_of q).
Proof.
  intro F. unfold text_of. destruct q as [|y p]; [repeat constructor|].
  unfold ctext, render. apply Forall_flat_map. eapply Forall_impl; [|exact F]. intros c (_ & _ & B & _). constructor; [split; reflexivity|exact B].
Qed.

Lemma realpath_text t cwd name s : sound t -> realpath_in t cwd name = Some s ->
  exists p k, file_in t cwd name = Some p /\ lookup t p = Some k /\ (forall g, k <> KLink g) /\ s = text_of p /\ ctext s /\
    forall from, place_in t from s = Some p /\ file_in t from s = Some p.
Proof.
  intros So E. unfold realpath_in in E. destruct (file_in t cwd name) as [p|] eqn:Ef; [|discriminate]. injection E as <-.
  assert (X : exists k, lookup t p = Some k /\ forall g, k <> KLink g).
  { unfold file_in in Ef. destruct (place_in t cwd name) as [p0|]; [|discriminate]. exact (follow_end t _ _ _ Ef). }
  destruct X as (k & Lk & Nk). exists p, k. split; [reflexivity|]. split; [exact Lk|]. split; [exact Nk|]. split; [reflexivity|].
  assert (Hl : lookup t p <> None) by (rewrite Lk; discriminate).
  split; [apply text_ctext; exact (sound_fname t p So Hl)|]. intro from. pose proof (place_text t from p So Hl) as Pt. split; [exact Pt|].
  unfold file_in. rewrite Pt. exact (follow_self t LINKS p k Lk Nk).
Qed.

(** ** Making links *)
Lemma sub_add t p k : lookup t p = None -> sub t ((p, k) :: t).
Proof.
  intros L q. destruct q as [|c q]; [right; reflexivity|]. unfold lookup in *. cbn [entry]. destruct (path_dec p (c :: q)) as [->|]; [left; exact L|right; reflexivity].
Qed.

Lemma lookup_add t p k q : p <> [] -> lookup ((p, k) :: t) q = if path_dec p q then Some k else lookup t q.
Proof.
  intro H. destruct q as [|c q]; [destruct (path_dec p []); [congruence|reflexivity]|]. reflexivity.
Qed.

Lemma place_in_sub t t' cwd n p : sub t t' -> place_in t cwd n = Some p -> place_in t' cwd n = Some p.
Proof. intros Su E. unfold place_in in *. destruct n; [discriminate|]. eapply walk_sub; [exact Su|exact E]. Qed.
