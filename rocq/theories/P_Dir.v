(** Proofs about directories. *)
From Verif Require Import Base S_Utf8 S_Path S_Tree M_Path M_Dir P_MixedVar P_Path.
Open Scope N_scope.

(** ** The file system *)
Lemma entry_in t p k : entry t p = Some k -> In (p, k) t.
Proof.
  induction t as [|[q j] t IH]; intro E; [discriminate|]. cbn in E. destruct (path_dec q p) as [->|_]; [injection E as ->; left; reflexivity|right; exact (IH E)].
Qed.

Lemma in_entry t p k : In (p, k) t -> entry t p <> None.
Proof.
  induction t as [|[q j] t IH]; intro H; [destruct H|]. cbn. destruct (path_dec q p) as [_|Hne]; [discriminate|].
  destruct H as [H|H]; [congruence|exact (IH H)].
Qed.

Lemma entry_del t p q : entry (del t p) q = if path_dec p q then None else entry t q.
Proof.
  unfold del. induction t as [|[a k] t IH]; [cbn; destruct (path_dec p q); reflexivity|]. cbn [filter fst].
  destruct (path_dec a p) as [->|Ha].
  - rewrite IH. cbn. destruct (path_dec p q); reflexivity.
  - cbn [entry]. rewrite IH. destruct (path_dec a q) as [->|_]; [|reflexivity]. destruct (path_dec p q); [congruence|reflexivity].
Qed.

Lemma lookup_del t p q : p <> [] -> lookup (del t p) q = if path_dec p q then None else lookup t q.
Proof.
  intro H. destruct q as [|c q]; cbn [lookup]; [destruct (path_dec p []); [congruence|reflexivity]|apply entry_del].
Qed.

Lemma incl_del t p : incl (del t p) t.
Proof. intros e He. apply filter_In in He. exact (proj1 He). Qed.

Lemma strip_ok p : forall q r, strip p q = Some r <-> q = p ++ r.
Proof.
  induction p as [|a p IH]; intros q r; cbn [strip app]; [split; congruence|].
  destruct q as [|b q]; [split; discriminate|]. destruct (list_eq_dec N.eq_dec a b) as [->|Hn].
  - rewrite IH. split; congruence.
  - split; [discriminate|]. intro E. congruence.
Qed.

Lemma children_in t p c : In c (children t p) <-> exists k, In (p ++ [c], k) t.
Proof.
  unfold children. rewrite in_flat_map. split.
  - intros ([q k] & Hin & Hc). cbn [fst] in Hc. destruct (strip p q) as [[|c' [|]]|] eqn:E; try (destruct Hc; fail).
    destruct Hc as [-> |[]]. apply strip_ok in E. subst q. exists k. exact Hin.
  - intros [k Hin]. exists (p ++ [c], k). split; [exact Hin|]. cbn [fst]. rewrite (proj2 (strip_ok p (p ++ [c]) [c]) eq_refl). left. reflexivity.
Qed.

Lemma children_none t p : (forall c, lookup t (p ++ [c]) = None) -> children t p = [].
Proof.
  intro H. destruct (children t p) as [|c l] eqn:E; [reflexivity|]. exfalso. assert (I1 : In c (children t p)) by (rewrite E; left; reflexivity).
  apply children_in in I1. destruct I1 as [k Hk]. specialize (H c). apply in_entry in Hk. destruct p; cbn [app lookup] in *; congruence.
Qed.

(** Names *)
Lemma fname_tidy c : fname c -> tidy c.
Proof. intros (A & B & _ & C & D). split; [split; assumption|]. split; assumption. Qed.

Lemma components_eq s : components s = comps s.
Proof. reflexivity. Qed.

Lemma components_add d n : fname n -> components (d ++ 47 :: n) = components d ++ [n].
Proof.
  intros (A & B & _). rewrite !components_eq, comps_app. f_equal. unfold comps. rewrite split_one by exact B. cbn.
  destruct n; [congruence|reflexivity].
Qed.

Lemma render_add p n : render (p ++ [n]) = render p ++ 47 :: n.
Proof. unfold render. rewrite flat_map_app. cbn. rewrite app_nil_r. reflexivity. Qed.

Lemma components_render p : Forall fname p -> components (render p) = p.
Proof.
  induction p as [|n p IH] using rev_ind; intro F; [reflexivity|]. apply Forall_app in F. destruct F as [F1 F2].
  rewrite render_add, components_add by exact (Forall_inv F2). rewrite IH by exact F1. reflexivity.
Qed.

Lemma render_ne p : p <> [] -> render p <> [].
Proof. intro H. destruct p; [congruence|discriminate]. Qed.

(** ** Reaching a place *)
(** Every proper prefix is a directory. *)
Definition way (t : tree) (p : path) : Prop := forall a b, p = a ++ b -> b <> [] -> lookup t a = Some KDir.

Lemma walk_unfold t links cur c r : walk t links cur (c :: r) =
  if list_eq_dec N.eq_dec c [46] then walk t links cur r
  else if list_eq_dec N.eq_dec c [46; 46] then walk t links (removelast cur) r
  else match r with
    | [] => Some (cur ++ [c])
    | _ => match lookup t (cur ++ [c]) with
        | Some KDir => walk t links (cur ++ [c]) r
        | Some (KLink tgt) => match links with O => None | S l => walk t l [] (tgt ++ r) end
        | _ => None
        end
    end.
Proof. destruct links; reflexivity. Qed.

Lemma walk_way t links : forall p cur, Forall fname p -> (forall a b, p = a ++ b -> b <> [] -> lookup t (cur ++ a) = Some KDir) ->
  walk t links cur p = Some (cur ++ p).
Proof.
  induction p as [|c p IH]; intros cur F W; [destruct links; cbn; rewrite app_nil_r; reflexivity|].
  rewrite walk_unfold. pose proof (Forall_inv F) as (_ & _ & _ & N1 & N2).
  destruct (list_eq_dec N.eq_dec c [46]); [congruence|]. destruct (list_eq_dec N.eq_dec c [46; 46]); [congruence|].
  destruct p as [|c2 p]; [reflexivity|]. rewrite (W [c] (c2 :: p) eq_refl ltac:(discriminate)).
  rewrite IH by (exact (Forall_inv_tail F) || (intros a b E Hb; rewrite <- app_assoc; cbn [app]; apply (W (c :: a) b); [rewrite E; reflexivity|exact Hb])).
  rewrite <- app_assoc. reflexivity.
Qed.

Lemma place_way t d p : d <> [] -> components d = p -> Forall fname p -> way t p -> place_of t d = Some p.
Proof.
  intros Hd E F W. unfold place_of. destruct d as [|x d]; [congruence|]. rewrite E. apply (walk_way t LINKS p []); [exact F|exact W].
Qed.

(** All prefixes, the place itself included, are directories. *)
Definition road (t : tree) (p : path) : Prop := forall a b, p = a ++ b -> lookup t a = Some KDir.

Lemma road_way t p n : road t p -> way t (p ++ [n]).
Proof.
  intros R a b E Hb. destruct (exists_last Hb) as (b' & z & ->). rewrite app_assoc in E. apply app_inj_tail in E. destruct E as [E _]. exact (R a b' E).
Qed.

Lemma road_next t p n : road t p -> lookup t (p ++ [n]) = Some KDir -> road t (p ++ [n]).
Proof.
  intros R L a b E. destruct b as [|x b] using rev_ind; [rewrite app_nil_r in E; subst a; exact L|].
  rewrite app_assoc in E. apply app_inj_tail in E. destruct E as [E _]. exact (R a b E).
Qed.

Lemma sound_parent t a : sound t -> forall b, lookup t (a ++ b) <> None -> b <> [] -> lookup t a = Some KDir.
Proof.
  intros [_ C]. induction b as [|c b IH] using rev_ind; intros L Hb; [congruence|]. rewrite app_assoc in L. specialize (C _ _ L).
  destruct b as [|x b]; [rewrite app_nil_r in C; exact C|]. apply IH; [rewrite C; discriminate|discriminate].
Qed.

Lemma sound_road t p : sound t -> lookup t p = Some KDir -> road t p.
Proof.
  intros S L a b ->. destruct b as [|c b]; [rewrite app_nil_r in L; exact L|]. apply (sound_parent t a S (c :: b)); [rewrite L; discriminate|discriminate].
Qed.

Definition below (p q : path) : Prop := exists c r, q = p ++ c :: r.

Lemma below_child p n q : under (p ++ [n]) q -> below p q.
Proof. intros [r ->]. exists n, r. rewrite <- app_assoc. reflexivity. Qed.

Lemma below_self p : ~ below p p.
Proof. intros (c & r & E). apply (f_equal (@length bytes)) in E. rewrite app_length in E. cbn in E. lia. Qed.

Lemma prefix_not_below (p a b : path) : p = a ++ b -> ~ below p a.
Proof. intros -> (c & r & E). apply (f_equal (@length bytes)) in E. rewrite !app_length in E. cbn in E. lia. Qed.

Lemma road_same t t' p : road t p -> (forall q, ~ below p q -> lookup t' q = lookup t q) -> road t' p.
Proof. intros R H a b E. rewrite H by (eapply prefix_not_below; exact E). exact (R a b E). Qed.

Lemma under_dec p q : {under p q} + {~ under p q}.
Proof.
  destruct (strip p q) as [r|] eqn:E; [left; exists r; apply strip_ok; exact E|right]. intros [r H]. apply strip_ok in H. congruence.
Qed.

Definition keys_ok (t : tree) : Prop := forall p k, In (p, k) t -> p <> [] /\ Forall fname p.

Lemma keys_incl t t' : incl t' t -> keys_ok t -> keys_ok t'.
Proof. intros H K p k I1. exact (K p k (H _ I1)). Qed.

Lemma lookup_in t p : lookup t p <> None -> p = [] \/ exists k, In (p, k) t.
Proof.
  destruct p as [|c p]; [left; reflexivity|]. cbn [lookup]. intro H. right. destruct (entry t (c :: p)) as [k|] eqn:E; [|congruence]. exists k. apply entry_in. exact E.
Qed.

(** unlink and rmdir at a known place *)
Lemma unlink_at t d p : place_of t d = Some p -> (p <> []) ->
  incl (fst (unlink t d)) t /\ (forall q, q <> p -> lookup (fst (unlink t d)) q = lookup t q).
Proof.
  intros E Hp. unfold unlink. rewrite E.
  assert (Same : incl t t /\ (forall q : path, q <> p -> lookup t q = lookup t q)) by (split; [apply incl_refl|reflexivity]).
  assert (Gone : incl (del t p) t /\ (forall q : path, q <> p -> lookup (del t p) q = lookup t q)).
  { split; [apply incl_del|]. intros q Hq. rewrite lookup_del by exact Hp. destruct (path_dec p q); [congruence|reflexivity]. }
  destruct (lookup t p) as [[| |]|]; cbn [fst]; assumption.
Qed.

Lemma rmdir_at t d p : place_of t d = Some p -> (p <> []) ->
  incl (fst (rmdir t d)) t /\ (forall q, q <> p -> lookup (fst (rmdir t d)) q = lookup t q).
Proof.
  intros E Hp. unfold rmdir. rewrite E.
  assert (Same : incl t t /\ (forall q : path, q <> p -> lookup t q = lookup t q)) by (split; [apply incl_refl|reflexivity]).
  assert (Gone : incl (del t p) t /\ (forall q : path, q <> p -> lookup (del t p) q = lookup t q)).
  { split; [apply incl_del|]. intros q Hq. rewrite lookup_del by exact Hp. destruct (path_dec p q); [congruence|reflexivity]. }
  destruct p as [|c p]; [congruence|]. destruct (lookup t (c :: p)) as [[| |]|]; cbn [fst]; try assumption.
  destruct (_ =? 0)%nat; cbn [fst]; assumption.
Qed.

Lemma app_ne {A} (p : list A) n : p ++ [n] <> [].
Proof. destruct p; discriminate. Qed.

(** Fewer entries: a path name leads to the same place or nowhere. *)
Definition sub (t' t : tree) : Prop := forall q, lookup t' q = None \/ lookup t' q = lookup t q.

Lemma sub_trans a b c : sub a b -> sub b c -> sub a c.
Proof. intros H1 H2 q. destruct (H1 q) as [E|E]; [left; exact E|]. destruct (H2 q) as [E2|E2]; [left; congruence|right; congruence]. Qed.

Lemma sub_del t p : p <> [] -> sub (del t p) t.
Proof. intros Hp q. rewrite lookup_del by exact Hp. destruct (path_dec p q); auto. Qed.

Lemma unlink_sub t d : sub (fst (unlink t d)) t.
Proof.
  unfold unlink. destruct (place_of t d) as [p|]; [|intro; right; reflexivity]. destruct (lookup t p) as [[| |]|] eqn:E; cbn [fst]; try (intro; right; reflexivity);
    apply sub_del; intros ->; discriminate.
Qed.

Lemma rmdir_sub t d : sub (fst (rmdir t d)) t.
Proof.
  unfold rmdir. destruct (place_of t d) as [[|c p]|]; try (intro; right; reflexivity). destruct (lookup t (c :: p)) as [[| |]|] eqn:E; cbn [fst]; try (intro; right; reflexivity).
  destruct (_ =? 0)%nat; cbn [fst]; [apply sub_del; discriminate|intro; right; reflexivity].
Qed.

Lemma walk_sub t t' : sub t' t -> forall links cs cur r, walk t' links cur cs = Some r -> walk t links cur cs = Some r.
Proof.
  intro S. induction links as [|links IHl]; induction cs as [|c cs IH]; intros cur r; try (intro E; exact E); rewrite !walk_unfold;
    (destruct (list_eq_dec N.eq_dec c [46]); [apply IH|]); (destruct (list_eq_dec N.eq_dec c [46; 46]); [apply IH|]);
    (destruct cs as [|c2 cs]; [intro E; exact E|]); destruct (S (cur ++ [c])) as [E|E]; rewrite E; try discriminate;
    destruct (lookup t (cur ++ [c])) as [[|tgt|]|]; try discriminate; try apply IH. apply IHl.
Qed.

Lemma place_sub t t' d r : sub t' t -> place_of t' d = Some r -> place_of t d = Some r.
Proof. intros S. unfold place_of. destruct d; [discriminate|]. apply walk_sub. exact S. Qed.

Lemma walk_more t : forall links cs cur p m, walk t links cur cs = Some p -> fname m -> (forall g, lookup t p <> Some (KLink g)) ->
  walk t links cur (cs ++ [m]) = None \/ walk t links cur (cs ++ [m]) = Some (p ++ [m]).
Proof.
  induction links as [|links IHl]; induction cs as [|c cs IH]; intros cur p m E Fm Hl.
  1,3: injection E as ->; right; cbn [app]; rewrite walk_unfold; destruct Fm as (_ & _ & _ & N1 & N2);
    (destruct (list_eq_dec N.eq_dec m [46]); [congruence|]); (destruct (list_eq_dec N.eq_dec m [46; 46]); [congruence|]); reflexivity.
  all: cbn [app]; rewrite walk_unfold in E |- *; (destruct (list_eq_dec N.eq_dec c [46]); [apply IH; assumption|]);
    (destruct (list_eq_dec N.eq_dec c [46; 46]); [apply IH; assumption|]); destruct cs as [|c2 cs].
  1,3: injection E as <-; cbn [app]; destruct (lookup t (cur ++ [c])) as [[|tgt|]|]; [left; reflexivity|destruct (Hl tgt eq_refl)| |left; reflexivity];
    right; rewrite walk_unfold; destruct Fm as (_ & _ & _ & N1 & N2);
    (destruct (list_eq_dec N.eq_dec m [46]); [congruence|]); (destruct (list_eq_dec N.eq_dec m [46; 46]); [congruence|]); reflexivity.
  - cbn [app]. destruct (lookup t (cur ++ [c])) as [[|tgt|]|]; try discriminate. exact (IH (cur ++ [c]) p m E Fm Hl).
  - cbn [app]. destruct (lookup t (cur ++ [c])) as [[|tgt|]|]; try discriminate.
    + change (tgt ++ c2 :: cs ++ [m]) with (tgt ++ (c2 :: cs) ++ [m]). rewrite app_assoc. apply IHl; assumption.
    + exact (IH (cur ++ [c]) p m E Fm Hl).
Qed.

(** ** Bytes stay bytes *)
Definition octets (b : bytes) : Prop := Forall (fun c => c < 256) b.

Lemma oct_firstn n b : octets b -> octets (firstn n b).
Proof. intro B. rewrite <- (firstn_skipn n b) in B. apply Forall_app in B. exact (proj1 B). Qed.
Lemma oct_skipn n b : octets b -> octets (skipn n b).
Proof. intro B. rewrite <- (firstn_skipn n b) in B. apply Forall_app in B. exact (proj2 B). Qed.

Lemma rd_oct b i v : octets b -> rd b i = Ok v -> v < 256.
Proof. intros B E. unfold rd in E. destruct (nth_error b i) eqn:En; [|discriminate]. injection E as <-. apply nth_error_In in En. exact (proj1 (Forall_forall _ _) B _ En). Qed.

Lemma wr_oct b i v b' : octets b -> v < 256 -> wr b i v = Ok b' -> octets b'.
Proof.
  intros B V E. unfold wr in E. destruct (Nat.ltb_spec i (length b)) as [L|_]; [|discriminate]. injection E as <-. rewrite upd_split by exact L.
  apply Forall_app. split; [apply oct_firstn; exact B|]. constructor; [exact V|]. apply oct_skipn. exact B.
Qed.

Lemma blit_oct b i s b' : octets b -> octets s -> blit b i s = Ok b' -> octets b'.
Proof.
  intros B S E. unfold blit in E. destruct (_ <=? _)%nat; [|discriminate]. injection E as <-.
  apply Forall_app. split; [apply oct_firstn; exact B|]. apply Forall_app. split; [exact S|apply oct_skipn; exact B].
Qed.

Lemma cstr_oct b : forall s, octets b -> cstr b = Ok s -> ctext s.
Proof.
  induction b as [|c b IH]; intros s B E; [discriminate|]. cbn [cstr] in E. destruct (N.eqb_spec c 0) as [_|Hc]; [injection E as <-; constructor|].
  apply bind_Ok in E. destruct E as (r & E1 & E). injection E as <-. pose proof (Forall_inv B) as B1. cbv beta in B1. constructor; [cbv beta; lia|].
  exact (IH r (Forall_inv_tail B) E1).
Qed.

Lemma dots_oct n : forall s, (length s <= n)%nat -> octets s -> octets (remove_dots s).
Proof.
  induction n as [|n IH]; intros [|c s] L B; try constructor; [cbn in L; lia|]. cbn [length] in L. pose proof (Forall_inv B) as B1. apply Forall_inv_tail in B.
  cbn [remove_dots]. destruct s as [|a t]; [constructor; [exact B1|constructor]|]. cbn [length] in L.
  assert (R : octets (c :: remove_dots (a :: t))) by (constructor; [exact B1|apply IH; [cbn [length]; lia|exact B]]).
  destruct t as [|b t]; [destruct (_ && _); [constructor; [exact B1|constructor]|exact R]|].
  destruct (_ && _); [apply IH; [cbn [length] in *; lia|exact (Forall_inv_tail B)]|exact R].
Qed.

Lemma parse_oct n : forall r b len b' len', (length r <= n)%nat -> octets r -> octets b -> parse r b len = Ok (Some (b', len')) -> octets b'.
Proof.
  induction n as [|n IH]; intros r b len b' len' L R B E; (destruct r as [|c r1]; [injection E as <- _; exact B|]); [cbn in L; lia|]. cbn [length] in L.
  pose proof (Forall_inv R) as R1. apply Forall_inv_tail in R.
  assert (Put : (if (LIM <=? len)%nat then Ok None else let* b1 := wr b len c in parse r1 b1 (S len)) = Ok (Some (b', len')) -> octets b').
  { destruct (LIM <=? len)%nat; [discriminate|]. intro X. apply bind_Ok in X. destruct X as (b1 & X1 & X2). eapply IH; [|exact R|exact (wr_oct _ _ _ _ B R1 X1)|exact X2]. lia. }
  cbn [parse] in E. destruct r1 as [|a [|a2 [|a3 t]]]; try (exact (Put E)). destruct (_ && _); [|exact (Put E)].
  eapply IH; [|exact (Forall_inv_tail (Forall_inv_tail R))|exact B|exact E]. cbn [length] in *. lia.
Qed.

Lemma copy_oct b len : octets b -> forall fuel x r x2 r' y, octets r -> copy_out fuel b len x r x2 = Ok (r', y) -> octets r'.
Proof.
  intro B. induction fuel as [|g IH]; intros x r x2 r' y R E; [discriminate|]. cbn [copy_out] in E. destruct (_ && _); [|injection E as <- _; exact R].
  apply bind_Ok in E. destruct E as (x' & _ & E). apply bind_Ok in E. destruct E as (c & E1 & E). apply bind_Ok in E. destruct E as (r1 & E2 & E).
  eapply IH; [|exact E]. exact (wr_oct _ _ _ _ R (rd_oct _ _ _ B E1) E2).
Qed.

Lemma finish_oct b len r trailing r' ok : octets b -> octets r -> M_Path.finish b len r trailing = Ok (r', ok) -> octets r'.
Proof.
  intros B R E. unfold M_Path.finish in E. apply bind_Ok in E. destruct E as ([r1 x2] & E1 & E). pose proof (copy_oct _ _ B _ _ _ _ _ _ R E1) as R1.
  apply bind_Ok in E. destruct E as ([r2 x3] & E2 & E).
  assert (R2 : octets r2).
  { destruct (_ && _) in E2; [|injection E2 as <- _; exact R1]. apply bind_Ok in E2. destruct E2 as (c & _ & E2). destruct (_ && _) in E2; [|injection E2 as <- _; exact R1].
    apply bind_Ok in E2. destruct E2 as (r3 & E2 & E3). injection E3 as <- _. eapply wr_oct; [exact R1| |exact E2]. reflexivity. }
  apply bind_Ok in E. destruct E as (x4 & _ & E). destruct (_ <=? _)%nat in E; [injection E as <- _; exact R2|].
  apply bind_Ok in E. destruct E as (r3 & E3 & E). apply bind_Ok in E. destruct E as (ok' & _ & E). injection E as <- _. eapply wr_oct; [exact R2| |exact E3]. reflexivity.
Qed.

Lemma ctext_oct s : ctext s -> octets s.
Proof. intro C. eapply Forall_impl; [|exact C]. cbv beta. lia. Qed.

Lemma absolute_oct sgn g2 g3 cwd r name trailing r' ok : length g3 = S LIM -> octets g2 -> octets r -> ctext name -> ctext cwd ->
  GetAbsoluteFilename sgn g2 g3 cwd r None name trailing = Ok (r', ok) -> octets r'.
Proof.
  intros L3 B2 R Cn Cc E. unfold GetAbsoluteFilename in E. destruct (gpf_total sgn g3 name Cn L3) as (b3 & ok3 & E3 & H3).
  match type of E with bind ?e _ = _ => replace e with (@Ok (bytes * bool) (b3, ok3)) in E by (symmetry; exact E3) end. cbn [bind] in E.
  destruct ok3; cbn [negb] in E; [|injection E as <- _; exact R]. destruct (H3 eq_refl) as (_ & _ & s & q & -> & Ns & Cs). rewrite cstr_app in E by exact Ns. cbn [bind] in E.
  assert (F : forall f3, close_dotdot (remove_dots s) = Some f3 -> octets f3).
  { intros f3. unfold close_dotdot. pose proof (dots_oct _ s (le_n _) (ctext_oct _ Cs)) as D. destruct (_ && _); [destruct (LIM <=? _)%nat; [discriminate|]|]; intro X; injection X as <-; [|exact D].
    apply Forall_app. split; [exact D|]. constructor; [reflexivity|constructor]. }
  destruct (close_dotdot (remove_dots s)) as [f3|]; [|injection E as <- _; exact R]. specialize (F f3 eq_refl).
  apply bind_Ok in E. destruct E as ([b2 ok2] & E2 & E).
  assert (Bb : octets b2).
  { unfold Getcwd in E2. destruct (_ <=? _)%nat; [|injection E2 as <- _; exact B2]. apply bind_Ok in E2. destruct E2 as (b1 & E1 & E2). injection E2 as <- _.
    eapply blit_oct; [exact B2| |exact E1]. apply Forall_app. split; [exact (ctext_oct _ Cc)|]. constructor; [reflexivity|constructor]. }
  destruct ok2; cbn [negb] in E; [|injection E as <- _; exact R]. apply bind_Ok in E. destruct E as (c0 & _ & E). destruct (negb _) in E; [injection E as <- _; exact R|].
  apply bind_Ok in E. destruct E as (d & _ & E). destruct (_ && _) in E at 1; [injection E as <- _; exact R|].
  apply bind_Ok in E. destruct E as ([b2' y'] & E4 & E).
  assert (Bb' : octets b2').
  { destruct (_ && _) in E4; [|injection E4 as <- _; exact Bb]. apply bind_Ok in E4. destruct E4 as (b1 & E1 & E4). injection E4 as <- _. eapply blit_oct; [exact Bb| |exact E1].
    repeat constructor. }
  destruct (LIM <=? _)%nat in E; [injection E as <- _; exact R|]. apply bind_Ok in E. destruct E as ([b4 len4] & E5 & E).
  assert (B4 : octets b4).
  { destruct (_ =? 0)%nat in E5; [|injection E5 as <- _; exact Bb']. apply bind_Ok in E5. destruct E5 as (b1 & E1 & E5). injection E5 as <- _. eapply wr_oct; [exact Bb'| |exact E1]. reflexivity. }
  apply bind_Ok in E. destruct E as (p & E6 & E). destruct p as [[b5 len5]|]; [|injection E as <- _; exact R].
  exact (finish_oct _ _ _ _ _ _ (parse_oct _ _ _ _ _ _ (le_n _) F B4 E6) R E).
Qed.

Lemma resolve_forall (P : bytes -> Prop) cs : forall st, Forall P st -> Forall P cs -> Forall P (resolve st cs).
Proof.
  induction cs as [|c cs IH]; intros st F G; [exact F|]. cbn [resolve]. pose proof (Forall_inv G) as G1. apply Forall_inv_tail in G.
  destruct (list_eq_dec N.eq_dec c []); [apply IH; assumption|]. destruct (list_eq_dec N.eq_dec c [46]); [apply IH; assumption|].
  destruct (list_eq_dec N.eq_dec c [46; 46]); [apply IH; [apply Forall_removelast; exact F|exact G]|].
  apply IH; [apply Forall_app; split; [exact F|constructor; [exact G1|constructor]]|exact G].
Qed.

Lemma split_ctext s : ctext s -> Forall ctext (split s).
Proof.
  induction s as [|c s IH]; intro F; [constructor; constructor|]. specialize (IH (Forall_inv_tail F)). destruct (N.eq_dec c 47) as [->|H].
  - rewrite split_slash. constructor; [constructor|exact IH].
  - rewrite split_char by exact H. pose proof (split_ne s). destruct (split s) as [|h t]; [congruence|]. cbn [hd tl]. constructor; [|exact (Forall_inv_tail IH)].
    constructor; [exact (Forall_inv F)|exact (Forall_inv IH)].
Qed.

Lemma place_fname cwd name : ctext cwd -> ctext name -> Forall fname (place cwd name).
Proof.
  intros C1 C2. assert (X : Forall tidy (place cwd name) /\ Forall ctext (place cwd name)).
  { unfold place. assert (G : forall st, Forall tidy st -> Forall ctext st -> Forall tidy (resolve st (split name)) /\ Forall ctext (resolve st (split name))).
    { intros st T S. split; [apply resolve_tidy; [exact T|apply split_noslash]|apply resolve_forall; [exact S|apply split_ctext; exact C2]]. }
    assert (G2 : Forall tidy (resolve [] (split cwd)) /\ Forall ctext (resolve [] (split cwd))).
    { split; [apply resolve_tidy; [constructor|apply split_noslash]|apply resolve_forall; [constructor|apply split_ctext; exact C1]]. }
    destruct name as [|c name]; [exact (G _ (proj1 G2) (proj2 G2))|]. destruct (N.eq_dec c 47) as [->|Hc]; [apply G; constructor|].
    assert (E : match c with 47 => resolve [] (split (c :: name)) | _ => resolve (resolve [] (split cwd)) (split (c :: name)) end = resolve (resolve [] (split cwd)) (split (c :: name))).
    { destruct c as [|[[[[[[?|?|]|[?|?|]|]|?|]|[?|?|]|]|[?|?|]|]|[?|?|]|]]; try reflexivity. all: try congruence. }
    rewrite E. exact (G _ (proj1 G2) (proj2 G2)). }
  destruct X as [T S]. apply Forall_forall. intros c Hc. pose proof (proj1 (Forall_forall _ _) T c Hc) as ((P1 & P2) & P3 & P4). pose proof (proj1 (Forall_forall _ _) S c Hc) as P5.
  split; [exact P3|]. split; [exact P4|]. split; [exact P5|]. split; assumption.
Qed.

Lemma unix_same s : ~ In 92 s -> unix s = s.
Proof.
  intro H. unfold unix. rewrite <- (map_id s) at 2. apply map_ext_in. intros c Hc. destruct (N.eqb_spec c 92) as [->|_]; [contradiction|reflexivity].
Qed.

Lemma unix_ctext s : ctext s -> ctext (unix s).
Proof. intro C. apply Forall_map. eapply Forall_impl; [|exact C]. cbv beta. intros c Hc. destruct (c =? 92); lia. Qed.

Lemma nice_ctext sgn s : nice sgn s -> ctext s.
Proof. intros (_ & _ & P & _). eapply Forall_impl; [|exact P]. cbv beta. unfold permitted. lia. Qed.

Lemma place_render cwd q : Forall fname q -> q <> [] -> place cwd (render q) = q.
Proof.
  intros F H. destruct q as [|c q]; [congruence|]. change (render (c :: q)) with (47 :: c ++ render q). cbn [place]. change (47 :: c ++ render q) with (render (c :: q)).
  rewrite resolve_all_proper.
  - cbn [app]. change (filter nonempty (split (render (c :: q)))) with (components (render (c :: q))). apply components_render. exact F.
  - rewrite <- (app_nil_r (render (c :: q))). apply render_proper; [|left; reflexivity]. eapply Forall_impl; [|exact F]. exact fname_tidy.
Qed.

Lemma hd_split_render q : hd [] (split (render q)) = [].
Proof. destruct q; reflexivity. Qed.

Section Dir.
Variable sgn : bool.
Variable cwd : bytes.
Variables g2 g3 gr : bytes -> bytes.
Hypothesis Lg2 : forall d, length (g2 d) = S LIM.
Hypothesis Lg3 : forall d, length (g3 d) = S LIM.
Hypothesis Zg2 : forall d, nth LIM (g2 d) 0 <> 47.
Hypothesis Ccwd : ctext cwd.

Local Notation absname := (M_Dir.absname sgn cwd g2 g3 gr).
Local Notation remove := (Rmdir_RecurseInternal sgn cwd g2 g3 gr).

Lemma absname_total d : ctext d -> exists o, absname d = Ok o.
Proof.
  intro C. unfold M_Dir.absname. destruct (absolute_total sgn (g2 d) (g3 d) cwd (gr d) None d false (Lg2 d) (Lg3 d) (Zg2 d) C Ccwd I) as (r & ok & E & _ & S).
  rewrite E. cbn [bind]. destruct ok; [|eauto]. destruct (S eq_refl) as [s ->]. cbn [bind]. eauto.
Qed.

(** Names a directory can have when read. *)
Definition listed (n : bytes) : Prop := n = [46] \/ n = [46; 46] \/ fname n.

Lemma opendir_names t d l : keys_ok t -> opendir t d = Some l -> Forall listed l.
Proof.
  intros K E. unfold opendir in E. destruct (place_of t d) as [p|]; [|discriminate]. destruct (dir_at t LINKS p) as [q|]; [|discriminate]. injection E as <-.
  constructor; [left; reflexivity|]. constructor; [right; left; reflexivity|]. apply Forall_forall. intros c Hc. apply children_in in Hc. destruct Hc as [k Hk].
  right. right. destruct (K _ _ Hk) as [_ F]. apply Forall_app in F. exact (Forall_inv (proj2 F)).
Qed.

Lemma ctext_add d n : ctext d -> fname n -> ctext (d ++ 47 :: n).
Proof. intros C (_ & _ & F & _). apply Forall_app. split; [exact C|]. constructor; [split; reflexivity|exact F]. Qed.

(** Nothing outside is touched.  [leads]: entries of [d] are entries of the directory [p]. *)
Definition leads (t : tree) (d : bytes) (p : path) : Prop := forall n r, fname n -> place_of t (d ++ 47 :: n) = Some r -> r = p ++ [n].

Lemma leads_sub t t' d p : sub t' t -> leads t d p -> leads t' d p.
Proof. intros S L n r Fn E. apply (L n r Fn). exact (place_sub t t' _ _ S E). Qed.

Lemma leads_next t d p n : fname n -> place_of t (d ++ 47 :: n) = Some (p ++ [n]) -> lookup t (p ++ [n]) = Some KDir -> leads t (d ++ 47 :: n) (p ++ [n]).
Proof.
  intros Fn E L m r Fm Er.
  assert (Eq : components ((d ++ 47 :: n) ++ 47 :: m) = components (d ++ 47 :: n) ++ [m]) by (apply components_add; exact Fm).
  unfold place_of in E, Er. destruct (d ++ 47 :: n) as [|x y] eqn:Ed; [destruct d; discriminate|]. cbn [app] in Er, Eq. rewrite Eq in Er.
  destruct (walk_more t LINKS _ [] (p ++ [n]) m E Fm) as [X|X]; [rewrite L; discriminate|congruence|congruence].
Qed.

Lemma remove_safe D fuel : forall t d p, keys_ok t -> (forall q k, In (q, k) t -> (length q <= D)%nat) -> ctext d -> leads t d p ->
  (D < fuel + length p)%nat -> (0 < fuel)%nat ->
  exists t', remove fuel t d = Ok t' /\ incl t' t /\ sub t' t /\ (forall q, ~ below p q -> lookup t' q = lookup t q).
Proof.
  induction fuel as [|fuel IH]; intros t d p K HD Cd Ld Hf Hf0; [lia|]. cbn [Rmdir_RecurseInternal].
  assert (Same : exists t', Ok t = Ok t' /\ incl t' t /\ sub t' t /\ (forall q, ~ below p q -> lookup t' q = lookup t q)).
  { exists t. split; [reflexivity|]. split; [apply incl_refl|]. split; [intro q; right; reflexivity|reflexivity]. }
  destruct (_ <=? length d)%nat; [exact Same|]. unfold dir_open. destruct (absname_total d Cd) as [o ->]. cbn [bind].
  destruct o as [s|]; cbn [bind]; [|exact Same]. destruct (opendir t s) as [names|] eqn:Eo; [|exact Same].
  pose proof (opendir_names t s names K Eo) as Hn. clear Eo Same.
  assert (L : forall names t0, Forall listed names -> incl t0 t -> sub t0 t -> (forall q, ~ below p q -> lookup t0 q = lookup t q) ->
    exists t', each_entry (remove fuel) d names t0 = Ok t' /\ incl t' t /\ sub t' t /\ (forall q, ~ below p q -> lookup t' q = lookup t q)).
  { clear names Hn. induction names as [|n names IHn]; intros t0 Hn H1 H1' H2; [exists t0; auto|]. cbn [each_entry].
    pose proof (Forall_inv Hn) as Ln. apply Forall_inv_tail in Hn.
    destruct (_ <? _)%nat; [exists t0; auto|].
    destruct (list_eq_dec N.eq_dec n [46]) as [_|N1]; [apply IHn; assumption|]. destruct (list_eq_dec N.eq_dec n [46; 46]) as [_|N2]; [apply IHn; assumption|].
    assert (Fn : fname n) by (destruct Ln as [X|[X|X]]; [congruence|congruence|exact X]). clear Ln N1 N2.
    change slash with 47. set (d1 := d ++ 47 :: n). assert (Cd1 : ctext d1) by (apply ctext_add; assumption).
    assert (Step : forall t1, incl t1 t0 -> sub t1 t0 -> (forall q, q <> p ++ [n] -> ~ below (p ++ [n]) q -> lookup t1 q = lookup t0 q) ->
      exists t', each_entry (remove fuel) d names t1 = Ok t' /\ incl t' t /\ sub t' t /\ (forall q, ~ below p q -> lookup t' q = lookup t q)).
    { intros t1 A1 A2 A3. apply IHn; [exact Hn|exact (incl_tran A1 H1)|exact (sub_trans _ _ _ A2 H1')|]. intros q Hq. rewrite A3; [apply H2; exact Hq| |].
      - intros ->. apply Hq. exists n, []. reflexivity.
      - intros (c & r & ->). apply Hq. exists n, (c :: r). rewrite <- app_assoc. reflexivity. }
    unfold lstat. destruct (place_of t0 d1) as [r|] eqn:Ep; [|apply IHn; assumption].
    assert (r = p ++ [n]) by (apply (leads_sub t t0 d p H1' Ld n r Fn); exact Ep). subst r.
    destruct (lookup t0 (p ++ [n])) as [k|] eqn:El; [|apply IHn; assumption].
    assert (Un : exists t', each_entry (remove fuel) d names (fst (unlink t0 d1)) = Ok t' /\ incl t' t /\ sub t' t /\ (forall q, ~ below p q -> lookup t' q = lookup t q)).
    { destruct (unlink_at t0 d1 (p ++ [n]) Ep (app_ne p n)) as [A1 A2]. apply Step; [exact A1|apply unlink_sub|]. intros q Hq _. exact (A2 q Hq). }
    destruct k as [|tgt|]; [exact Un|exact Un|].
    destruct (lookup_in t0 (p ++ [n]) ltac:(rewrite El; discriminate)) as [X|[k Hk]]; [destruct (app_ne p n X)|].
    pose proof (HD _ _ (H1 _ Hk)) as Hlen. rewrite app_length in Hlen. cbn [length] in Hlen.
    destruct (IH t0 d1 (p ++ [n]) (keys_incl _ _ H1 K) (fun q k I1 => HD q k (H1 _ I1)) Cd1) as (t1 & E1 & B1 & B2 & B3).
    { apply leads_next; assumption. }
    { rewrite app_length. cbn [length]. lia. }
    { lia. }
    rewrite E1. cbn [bind]. destruct (place_of t1 d1) as [r|] eqn:Ep1.
    - assert (r = p ++ [n]) by (apply (leads_sub t t1 d p (sub_trans _ _ _ B2 H1') Ld n r Fn); exact Ep1). subst r.
      destruct (rmdir_at t1 d1 (p ++ [n]) Ep1 (app_ne p n)) as [A1 A2].
      apply Step; [exact (incl_tran A1 B1)|exact (sub_trans _ _ _ (rmdir_sub t1 d1) B2)|]. intros q Hq1 Hq2. rewrite A2 by exact Hq1. exact (B3 q Hq2).
    - unfold rmdir. rewrite Ep1. cbn [fst]. apply Step; [exact B1|exact B2|]. intros q _ Hq. exact (B3 q Hq). }
  exact (L names t Hn (incl_refl t) (fun q => or_intror eq_refl) (fun q _ => eq_refl)).
Qed.

(** ** Everything beneath is removed *)
(** Directories can be opened and names are not too long. *)
Definition fine (t : tree) (p : path) : Prop :=
  (forall q, under p q -> lookup t q = Some KDir -> absname (render q) = Ok (Some (render q)) /\ (length (render q) <= N.to_nat 8188)%nat) /\
  (forall q, below p q -> lookup t q <> None -> (length (render q) <= N.to_nat 8191)%nat).

Lemma remove_all D fuel : forall t p, sound t -> (forall q k, In (q, k) t -> (length q <= D)%nat) -> p <> [] -> Forall fname p ->
  lookup t p = Some KDir -> fine t p -> (D - length p < fuel)%nat -> (length p <= D)%nat ->
  exists t', remove fuel t (render p) = Ok t' /\ incl t' t /\ (forall q, below p q -> lookup t' q = None) /\ (forall q, ~ below p q -> lookup t' q = lookup t q).
Proof.
  induction fuel as [|fuel IH]; intros t p So HD Hp0 Fp Lp [F1 F2] Hf Hp; [lia|]. cbn [Rmdir_RecurseInternal].
  destruct (F1 p ltac:(exists []; rewrite app_nil_r; reflexivity) Lp) as [Ab Ln].
  destruct (Nat.leb_spec (N.to_nat 8190) (length (render p))) as [X|_]; [lia|]. unfold dir_open. rewrite Ab. cbn [bind].
  pose proof (sound_road t p So Lp) as R.
  assert (Pl : place_of t (render p) = Some p).
  { apply place_way; [apply render_ne; exact Hp0|apply components_render; exact Fp|exact Fp|]. intros a b E _. exact (R a b E). }
  unfold opendir. rewrite Pl. cbn [dir_at LINKS]. rewrite Lp.
  set (done := fun (l : list bytes) (q : path) => exists n, In n l /\ under (p ++ [n]) q).
  assert (L : forall names t0 l, Forall listed names -> (forall n, In n names -> fname n -> (length (render p) + 1 + length n <= N.to_nat 8191)%nat) -> Forall fname l ->
    incl t0 t -> (forall q, done l q -> lookup t0 q = None) -> (forall q, ~ done l q -> lookup t0 q = lookup t q) ->
    exists t' l', each_entry (remove fuel) (render p) names t0 = Ok t' /\ Forall fname l' /\ (forall n, In n l -> In n l') /\ (forall n, In n names -> fname n -> In n l') /\
      incl t' t /\ (forall q, done l' q -> lookup t' q = None) /\ (forall q, ~ done l' q -> lookup t' q = lookup t q)).
  { induction names as [|n names IHn]; intros t0 l Hn Hlen Fl H1 H2 H3.
    { exists t0, l. split; [reflexivity|]. split; [exact Fl|]. split; [auto|]. split; [intros n []|]. auto. }
    cbn [each_entry]. pose proof (Forall_inv Hn) as Ln1. apply Forall_inv_tail in Hn.
    assert (Hlen' : forall m, In m names -> fname m -> (length (render p) + 1 + length m <= N.to_nat 8191)%nat) by (intros m Hm; apply Hlen; right; exact Hm).
    assert (Skip : n = [46] \/ n = [46; 46] -> exists t' l', each_entry (remove fuel) (render p) names t0 = Ok t' /\ Forall fname l' /\ (forall n, In n l -> In n l') /\
      (forall m, In m (n :: names) -> fname m -> In m l') /\ incl t' t /\ (forall q, done l' q -> lookup t' q = None) /\ (forall q, ~ done l' q -> lookup t' q = lookup t q)).
    { intro Hdot. destruct (IHn t0 l Hn Hlen' Fl H1 H2 H3) as (t' & l' & E & Q1 & Q2 & Q3 & Q4). exists t', l'. split; [exact E|]. split; [exact Q1|]. split; [exact Q2|].
      split; [|exact Q4]. intros m [<-|Hm] Fm; [|exact (Q3 m Hm Fm)]. destruct Fm as (_ & _ & _ & X & Y). destruct Hdot; congruence. }
    assert (Hsz : (length n + 1 <= N.to_nat 8192 - length (render p) - 1)%nat).
    { destruct Ln1 as [-> |[-> |Fn]]; [cbn [length]; lia|cbn [length]; lia|]. specialize (Hlen n (or_introl eq_refl) Fn). lia. }
    destruct (Nat.ltb_spec (N.to_nat 8192 - length (render p) - 1) (length n + 1)) as [X|_]; [lia|].
    destruct (list_eq_dec N.eq_dec n [46]) as [E|N1]; [apply Skip; left; exact E|]. destruct (list_eq_dec N.eq_dec n [46; 46]) as [E|N2]; [apply Skip; right; exact E|]. clear Skip.
    assert (Fn : fname n) by (destruct Ln1 as [X|[X|X]]; [congruence|congruence|exact X]). clear Ln1 N1 N2.
    change slash with 47. rewrite <- render_add. set (d1 := render (p ++ [n])).
    assert (Fp1 : Forall fname (p ++ [n])) by (apply Forall_app; split; [exact Fp|constructor; [exact Fn|constructor]]).
    assert (Ec1 : components d1 = p ++ [n]) by (apply components_render; exact Fp1).
    assert (Hd1 : d1 <> []) by (apply render_ne, app_ne).
    assert (NB : forall q, ~ below p q -> lookup t0 q = lookup t q).
    { intros q Hq. apply H3. intros (m & _ & U). apply Hq. exact (below_child _ _ _ U). }
    assert (P : forall t1, (forall q, ~ below p q -> lookup t1 q = lookup t q) -> place_of t1 d1 = Some (p ++ [n])).
    { intros t1 H. apply place_way; [exact Hd1|exact Ec1|exact Fp1|]. apply road_way. exact (road_same t t1 p R H). }
    (* after this entry *)
    assert (Step : forall t1, incl t1 t0 -> (forall q, under (p ++ [n]) q -> lookup t1 q = None) -> (forall q, ~ under (p ++ [n]) q -> lookup t1 q = lookup t0 q) ->
      exists t' l', each_entry (remove fuel) (render p) names t1 = Ok t' /\ Forall fname l' /\ (forall n, In n l -> In n l') /\
      (forall m, In m (n :: names) -> fname m -> In m l') /\ incl t' t /\ (forall q, done l' q -> lookup t' q = None) /\ (forall q, ~ done l' q -> lookup t' q = lookup t q)).
    { intros t1 A1 A2 A3. destruct (IHn t1 (n :: l) Hn Hlen' ltac:(constructor; assumption) (incl_tran A1 H1)) as (t' & l' & E & Q1 & Q2 & Q3 & Q4).
      - intros q (m & [<-|Hm] & U); [exact (A2 q U)|]. destruct (under_dec (p ++ [n]) q) as [U2|U2]; [exact (A2 q U2)|]. rewrite A3 by exact U2. apply H2. exists m. auto.
      - intros q Hq. rewrite A3; [apply H3|]; intro X; apply Hq; [destruct X as (m & Hm & U); exists m; split; [right; exact Hm|exact U]|exists n; split; [left; reflexivity|exact X]].
      - exists t', l'. split; [exact E|]. split; [exact Q1|]. split; [intros m Hm; apply Q2; right; exact Hm|]. split; [|exact Q4].
        intros m [<-|Hm] Fm; [apply Q2; left; reflexivity|exact (Q3 m Hm Fm)]. }
    assert (Sub : forall q, lookup t0 q <> None -> lookup t0 q = lookup t q /\ ~ done l q).
    { intros q Hq. assert (X : ~ done l q) by (intro X; exact (Hq (H2 q X))). split; [exact (H3 q X)|exact X]. }
    assert (So0 : sound t0).
    { split; [intros q k Hk; exact (proj1 So q k (H1 _ Hk))|]. intros a c Ha. destruct (Sub _ Ha) as [X1 X2]. rewrite X1 in Ha. rewrite H3; [exact (proj2 So a c Ha)|].
      intros (m & Hm & r & ->). apply X2. exists m. split; [exact Hm|]. exists (r ++ [c]). rewrite app_assoc. reflexivity. }
    unfold lstat. rewrite (P t0 NB). destruct (lookup t0 (p ++ [n])) as [k|] eqn:El.
    2:{ (* not there *)
      apply Step; [apply incl_refl| |reflexivity]. intros q [r ->]. destruct r as [|c r]; [rewrite app_nil_r; exact El|].
      destruct (lookup t0 ((p ++ [n]) ++ c :: r)) eqn:Eq; [|reflexivity]. exfalso.
      pose proof (sound_parent t0 (p ++ [n]) So0 (c :: r) ltac:(rewrite Eq; discriminate) ltac:(discriminate)). congruence. }
    assert (Un : k <> KDir -> exists t' l', each_entry (remove fuel) (render p) names (fst (unlink t0 d1)) = Ok t' /\ Forall fname l' /\ (forall n, In n l -> In n l') /\
      (forall m, In m (n :: names) -> fname m -> In m l') /\ incl t' t /\ (forall q, done l' q -> lookup t' q = None) /\ (forall q, ~ done l' q -> lookup t' q = lookup t q)).
    { intro Hk. destruct (unlink_at t0 d1 (p ++ [n]) (P t0 NB) (app_ne p n)) as [A1 A2]. apply Step; [exact A1| |].
      - intros q [r ->]. destruct r as [|c r].
        + rewrite app_nil_r. unfold unlink. rewrite (P t0 NB), El. destruct k; try congruence; cbn [fst]; rewrite lookup_del by apply app_ne;
            (destruct (path_dec (p ++ [n]) (p ++ [n])); [reflexivity|congruence]).
        + rewrite A2 by (intro X; apply (f_equal (@length bytes)) in X; rewrite !app_length in X; cbn in X; lia).
          destruct (lookup t0 ((p ++ [n]) ++ c :: r)) eqn:Eq; [|reflexivity]. exfalso.
          pose proof (sound_parent t0 (p ++ [n]) So0 (c :: r) ltac:(rewrite Eq; discriminate) ltac:(discriminate)). congruence.
      - intros q Hq. apply A2. intros ->. apply Hq. exists []. rewrite app_nil_r. reflexivity. }
    destruct k as [|tgt|]; [apply Un; discriminate|apply Un; discriminate|]. clear Un.
    destruct (lookup_in t0 (p ++ [n]) ltac:(rewrite El; discriminate)) as [X|[k Hk]]; [destruct (app_ne p n X)|].
    pose proof (HD _ _ (H1 _ Hk)) as Hle. rewrite app_length in Hle. cbn [length] in Hle.
    destruct (IH t0 (p ++ [n]) So0 (fun q k I1 => HD q k (H1 _ I1)) (app_ne p n) Fp1 El) as (t1 & E1 & B1 & B2 & B3).
    { split.
      - intros q U Lq. destruct (Sub q ltac:(rewrite Lq; discriminate)) as [X _]. apply F1; [|congruence]. destruct U as [r ->]. exists (n :: r). rewrite <- app_assoc. reflexivity.
      - intros q (c & r & ->) Lq. destruct (Sub _ Lq) as [X _]. apply F2; [exists n, (c :: r); rewrite <- app_assoc; reflexivity|congruence]. }
    { rewrite app_length. cbn [length]. lia. }
    { rewrite app_length. cbn [length]. lia. }
    fold d1 in E1. rewrite E1. cbn [bind].
    assert (NB1 : forall q, ~ below p q -> lookup t1 q = lookup t q).
    { intros q Hq. rewrite B3; [apply NB; exact Hq|]. intros (c & r & ->). apply Hq. exists n, (c :: r). rewrite <- app_assoc. reflexivity. }
    assert (L1 : lookup t1 (p ++ [n]) = Some KDir) by (rewrite B3 by apply below_self; exact El).
    assert (Rm : rmdir t1 d1 = (del t1 (p ++ [n]), true)).
    { unfold rmdir. rewrite (P t1 NB1). destruct (p ++ [n]) as [|x y] eqn:Ex; [destruct (app_ne p n Ex)|]. rewrite L1.
      rewrite children_none; [reflexivity|]. intro c. apply B2. exists c, []. reflexivity. }
    rewrite Rm. cbn [fst]. apply Step.
    - exact (incl_tran (incl_del _ _) B1).
    - intros q U. rewrite lookup_del by apply app_ne. destruct (path_dec (p ++ [n]) q) as [_|Hne]; [reflexivity|]. apply B2. destruct U as [[|c r] ->].
      + rewrite app_nil_r in Hne. congruence.
      + exists c, r. reflexivity.
    - intros q U. rewrite lookup_del by apply app_ne. destruct (path_dec (p ++ [n]) q) as [<-|Hne].
      + exfalso. apply U. exists []. rewrite app_nil_r. reflexivity.
      + apply B3. intros (c & r & ->). apply U. exists (c :: r). reflexivity. }
  assert (Hn : Forall listed ([46] :: [46; 46] :: children t p)).
  { constructor; [left; reflexivity|]. constructor; [right; left; reflexivity|]. apply Forall_forall. intros c Hc. apply children_in in Hc. destruct Hc as [k Hk].
    right. right. destruct (proj1 So _ _ Hk) as [_ F]. apply Forall_app in F. exact (Forall_inv (proj2 F)). }
  destruct (L _ t [] Hn) as (t' & l' & E & Q1 & _ & Q3 & Q4 & Q5 & Q6).
  - intros n [<-|[<-|Hc]] Fn; [destruct Fn as (_ & _ & _ & X & _); congruence|destruct Fn as (_ & _ & _ & _ & X); congruence|].
    apply children_in in Hc. destruct Hc as [k Hk]. apply in_entry in Hk. specialize (F2 (p ++ [n])). rewrite render_add, app_length in F2. cbn [length] in F2.
    rewrite <- Nat.add_assoc. apply F2; [exists n, []; reflexivity|]. destruct p; exact Hk.
  - constructor.
  - apply incl_refl.
  - intros q (n & [] & _).
  - reflexivity.
  - exists t'. split; [exact E|]. split; [exact Q4|]. split.
    + intros q (c & r & ->). destruct (lookup t (p ++ c :: r)) as [k|] eqn:Eq.
      * apply Q5. exists c. assert (Hc : lookup t (p ++ [c]) <> None).
        { destruct r as [|c2 r]; [rewrite Eq; discriminate|]. change (p ++ c :: c2 :: r) with (p ++ [c] ++ c2 :: r) in Eq. rewrite app_assoc in Eq.
          rewrite (sound_parent t (p ++ [c]) So (c2 :: r)); [discriminate|rewrite Eq; discriminate|discriminate]. }
        destruct (lookup_in _ _ Hc) as [X|[k2 Hk2]]; [destruct (app_ne p c X)|]. split.
        -- apply Q3; [right; right; apply children_in; exists k2; exact Hk2|]. destruct (proj1 So _ _ Hk2) as [_ F]. apply Forall_app in F. exact (Forall_inv (proj2 F)).
        -- exists r. rewrite <- app_assoc. reflexivity.
      * destruct (lookup t' (p ++ c :: r)) as [k|] eqn:Eq'; [|reflexivity]. exfalso.
        destruct (lookup_in t' (p ++ c :: r) ltac:(rewrite Eq'; discriminate)) as [X|[k2 Hk2]]; [destruct p; discriminate|].
        apply Q4 in Hk2. apply in_entry in Hk2. destruct p; cbn [app lookup] in *; congruence.
    + intros q Hq. apply Q6. intros (n & _ & U). apply Hq. exact (below_child _ _ _ U).
Qed.

Hypothesis Lgr : forall d, length (gr d) = S LIM.
Hypothesis Bg2 : forall d, octets (g2 d).
Hypothesis Bgr : forall d, octets (gr d).
Hypothesis Acwd : absolute cwd.
Hypothesis Pcwd : Forall proper (split cwd).

Lemma absname_ctext d s : ctext d -> absname d = Ok (Some s) -> ctext s.
Proof.
  intros C E. unfold M_Dir.absname in E. apply bind_Ok in E. destruct E as ([r ok] & E1 & E). destruct ok; [|discriminate].
  apply bind_Ok in E. destruct E as (s' & E2 & E). injection E as <-. eapply cstr_oct; [|exact E2]. eapply absolute_oct; [apply Lg3|apply Bg2|apply Bgr|exact C|exact Ccwd|exact E1].
Qed.

Lemma absname_at name : nice sgn name -> proper (hd [] (split (unix name))) -> (length cwd + length name + 3 <= LIM)%nat ->
  (length (render (place cwd (unix name))) <= LIM)%nat -> absname name = Ok (Some (render (place cwd (unix name)))).
Proof.
  intros Nn Pn Len Cap. unfold M_Dir.absname.
  destruct (absolute_core sgn (g2 name) (g3 name) (skipn (S (length name)) (g3 name)) cwd (gr name) None name (unix name) false cwd) as (r & E & Es & _).
  - apply gpf_nice; [exact Nn|rewrite Lg3; lia].
  - exact (nice_nz _ _ Nn).
  - destruct Nn as [Hn _]. destruct name; [congruence|discriminate].
  - exact Pn.
  - unfold Getcwd. destruct (Nat.leb_spec (length cwd + 1) (length (g2 name))) as [_|X]; [|rewrite Lg2 in X; lia].
    rewrite blit_in by (rewrite app_length, Lg2; cbn [length]; lia). cbn [bind firstn app Nat.add]. do 2 f_equal. rewrite app_length. cbn [length]. rewrite <- app_assoc, Nat.add_1_r. reflexivity.
  - apply Lg2.
  - apply Zg2.
  - eapply Forall_impl; [|exact Ccwd]. cbv beta. lia.
  - destruct Acwd as [r ->]. reflexivity.
  - exact Pcwd.
  - rewrite unix_len. exact Len.
  - unfold ending. rewrite app_nil_r, Lgr. lia.
  - rewrite E. cbn [bind]. match goal with |- context [bind ?e _] => replace e with (@Ok bytes (render (place cwd (unix name)) ++ ending false)) by (symmetry; exact Es) end.
    cbn [bind ending]. rewrite app_nil_r. reflexivity.
Qed.

(** A physical path names itself. *)
Definition known (q : path) : Prop :=
  nice sgn (render q) /\ ~ In 92 (render q) /\ (length cwd + length (render q) + 3 <= LIM)%nat.

Lemma absname_own q : q <> [] -> Forall fname q -> known q -> absname (render q) = Ok (Some (render q)).
Proof.
  intros Hq F (Nq & Bq & Lq). pose proof (absname_at (render q) Nq) as A. rewrite unix_same, place_render in A by assumption.
  apply A; [rewrite hd_split_render; split; discriminate|exact Lq|lia].
Qed.

Lemma rmdir_safe D fuel t name : keys_ok t -> (forall q k, In (q, k) t -> (length q <= D)%nat) -> ctext name -> (D < fuel)%nat ->
  exists t' ok, Rmdir sgn cwd g2 g3 gr fuel t name true = Ok (t', ok) /\
  (forall q, lookup t' q <> lookup t q -> exists s p, absname name = Ok (Some s) /\ place_of t s = Some p /\ (forall g, lookup t p <> Some (KLink g)) /\ under p q /\ lookup t' q = None).
Proof.
  intros K HD Cn Hf. unfold Rmdir. destruct (absname_total name Cn) as [o Eo]. rewrite Eo. cbn [bind]. destruct o as [s|]; [|do 2 eexists; split; [reflexivity|]; congruence].
  pose proof (absname_ctext name s Cn Eo) as Cs.
  assert (Last : forall t1 p, sub t1 t -> place_of t s = Some p -> (forall g, lookup t p <> Some (KLink g)) -> (forall q, lookup t1 q <> lookup t q -> under p q) ->
    exists t' ok, Ok (rmdir t1 s) = Ok (t', ok) /\ (forall q, lookup t' q <> lookup t q -> exists s0 p, Ok (Some s) = Ok (Some s0) /\ place_of t s0 = Some p /\ (forall g, lookup t p <> Some (KLink g)) /\ under p q /\ lookup t' q = None)).
  { intros t1 p S1 Ep Hl H1. exists (fst (rmdir t1 s)), (snd (rmdir t1 s)). split; [destruct (rmdir t1 s); reflexivity|]. intros q Hq. exists s, p. split; [reflexivity|]. split; [exact Ep|]. split; [exact Hl|].
    destruct (sub_trans _ _ _ (rmdir_sub t1 s) S1 q) as [X|X]; [|congruence]. split; [|exact X].
    destruct (rmdir_sub t1 s q) as [Y|Y]; [|rewrite Y in Hq; exact (H1 q Hq)].
    destruct (place_of t1 s) as [p1|] eqn:E1; [|apply H1; unfold rmdir in Hq; rewrite E1 in Hq; exact Hq].
    pose proof (place_sub t t1 s p1 S1 E1) as E2. assert (p1 = p) by congruence. subst p1.
    destruct p as [|c p]; [apply H1; unfold rmdir in Hq; rewrite E1 in Hq; exact Hq|].
    destruct (path_dec q (c :: p)) as [->|Hne]; [exists []; rewrite app_nil_r; reflexivity|].
    destruct (rmdir_at t1 s (c :: p) E1 ltac:(discriminate)) as [_ R]. rewrite (R q Hne) in Hq. exact (H1 q Hq). }
  assert (Here : exists t' ok, Ok (rmdir t s) = Ok (t', ok) /\ (forall q, lookup t' q <> lookup t q -> exists s0 p, Ok (Some s) = Ok (Some s0) /\ place_of t s0 = Some p /\ (forall g, lookup t p <> Some (KLink g)) /\ under p q /\ lookup t' q = None)).
  { destruct (place_of t s) as [p|] eqn:Ep.
    - destruct (lookup t p) as [[|tgt|]|] eqn:Lp.
      2:{ exists t, false. unfold rmdir. rewrite Ep. destruct p as [|c p]; [split; [reflexivity|congruence]|]. rewrite Lp. split; [reflexivity|congruence]. }
      all: apply (Last t p); [intro; right; reflexivity|reflexivity|rewrite Lp; discriminate|congruence].
    - exists t, false. unfold rmdir. rewrite Ep. split; [reflexivity|congruence]. }
  unfold lstat. destruct (place_of t s) as [p|] eqn:Ep; [|cbn [bind]; exact Here]. destruct (lookup t p) as [k|] eqn:Lp; [|cbn [bind]; exact Here].
  assert (Rec : (forall g, k <> KLink g) -> exists t' ok, (let* t1 := remove fuel t s in Ok (rmdir t1 s)) = Ok (t', ok) /\ (forall q, lookup t' q <> lookup t q -> exists s0 p, Ok (Some s) = Ok (Some s0) /\ place_of t s0 = Some p /\ (forall g, lookup t p <> Some (KLink g)) /\ under p q /\ lookup t' q = None)).
  { intro Hk. assert (Hl : forall g, lookup t p <> Some (KLink g)) by (intros g X; rewrite Lp in X; injection X as X; exact (Hk g X)).
    destruct (remove_safe D fuel t s p K HD Cs) as (t1 & E1 & _ & S1 & N1).
    - intros n r Fn Er. assert (Eq : components (s ++ 47 :: n) = components s ++ [n]) by (apply components_add; exact Fn).
      unfold place_of in Ep, Er. destruct s as [|x y]; [discriminate|]. cbn [app] in Er, Eq. rewrite Eq in Er.
      destruct (walk_more t LINKS _ [] p n Ep Fn Hl) as [X|X]; congruence.
    - lia.
    - lia.
    - rewrite E1. cbn [bind]. apply (Last t1 p); [exact S1|reflexivity|exact Hl|]. intros q Hq. destruct (under_dec p q) as [U|U]; [exact U|]. exfalso. apply Hq. apply N1. intros (c & r & ->). apply U. exists (c :: r). reflexivity. }
  destruct k as [|tgt|]; [apply Rec; discriminate|cbn [bind]; exact Here|apply Rec; discriminate].
Qed.

Lemma rmdir_removes D fuel t name : let p := place cwd (unix name) in
  nice sgn name -> proper (hd [] (split (unix name))) -> (length cwd + length name + 3 <= LIM)%nat ->
  sound t -> (forall q k, In (q, k) t -> (length q <= D)%nat) -> (D < fuel)%nat -> p <> [] -> lookup t p = Some KDir ->
  (forall q, under p q -> lookup t q = Some KDir -> known q) -> (forall q, below p q -> lookup t q <> None -> (length (render q) <= LIM)%nat) ->
  exists t', Rmdir sgn cwd g2 g3 gr fuel t name true = Ok (t', true) /\ (forall q, under p q -> lookup t' q = None) /\ (forall q, ~ under p q -> lookup t' q = lookup t q).
Proof.
  intros p Nn Pn Len So HD Hf Hp Lp Kn Ln. unfold Rmdir.
  assert (Fp : Forall fname p) by (apply place_fname; [exact Ccwd|apply unix_ctext; exact (nice_ctext _ _ Nn)]).
  assert (Kp : known p) by (apply Kn; [exists []; rewrite app_nil_r; reflexivity|exact Lp]). pose proof LIM_val as LV.
  rewrite absname_at by (assumption || (fold p; destruct Kp as (_ & _ & X); lia)). fold p. cbn [bind].
  pose proof (sound_road t p So Lp) as R.
  assert (Pl : forall t1, (forall q, ~ below p q -> lookup t1 q = lookup t q) -> place_of t1 (render p) = Some p).
  { intros t1 H. apply place_way; [apply render_ne; exact Hp|apply components_render; exact Fp|exact Fp|]. intros a b E _. exact (road_same t t1 p R H a b E). }
  unfold lstat. rewrite (Pl t) by reflexivity. rewrite Lp.
  destruct (lookup_in t p ltac:(rewrite Lp; discriminate)) as [X|[k Hk]]; [congruence|].
  destruct (remove_all D fuel t p So HD Hp Fp Lp) as (t1 & E1 & I1 & B1 & N1).
  - split.
    + intros q U Lq. pose proof (Kn q U Lq) as Kq. destruct (lookup_in t q ltac:(rewrite Lq; discriminate)) as [->|[kq Hq]].
      * destruct U as [r Er]. destruct p; [congruence|discriminate].
      * destruct (proj1 So q kq Hq) as [Hq1 Hq2]. split; [apply absname_own; assumption|]. destruct Kq as (_ & _ & X). destruct Acwd as [r Er]. rewrite Er in X. cbn [length] in X. lia.
    + intros q Bq Lq. specialize (Ln q Bq Lq). lia.
  - pose proof (HD p k Hk). lia.
  - exact (HD p k Hk).
  - rewrite E1. cbn [bind]. assert (L1 : lookup t1 p = Some KDir) by (rewrite N1 by apply below_self; exact Lp).
    unfold rmdir. rewrite (Pl t1 N1). destruct p as [|x y] eqn:Ex; [congruence|]. rewrite L1, children_none by (intro c; apply B1; exists c, []; reflexivity). cbn [length Nat.eqb].
    rewrite <- Ex in *. exists (del t1 p). split; [reflexivity|]. split.
    + intros q U. rewrite lookup_del by congruence. destruct (path_dec p q) as [_|Hne]; [reflexivity|]. apply B1. destruct U as [[|c r] ->]; [rewrite app_nil_r in Hne; congruence|exists c, r; reflexivity].
    + intros q U. rewrite lookup_del by congruence. destruct (path_dec p q) as [<-|Hne]; [exfalso; apply U; exists []; rewrite app_nil_r; reflexivity|].
      apply N1. intros (c & r & ->). apply U. exists (c :: r). reflexivity.
Qed.

(** ** Making directories *)
Lemma mkdir_lookup t d : forall q, lookup (fst (mkdir t d)) q = lookup t q \/ (lookup t q = None /\ lookup (fst (mkdir t d)) q = Some KDir).
Proof.
  intro q. unfold mkdir. destruct (place_of t d) as [p|]; [|left; reflexivity]. destruct (lookup t p) as [k|] eqn:Lp; [left; reflexivity|].
  destruct (lookup t (removelast p)) as [[| |]|]; try (left; reflexivity). cbn [fst]. destruct q as [|c q]; [left; reflexivity|]. cbn [lookup entry].
  destruct (path_dec p (c :: q)) as [->|_]; [right; split; [exact Lp|reflexivity]|left; reflexivity].
Qed.

Lemma mkdirs_lookup d : forall n x t q, lookup (mkdirs n t d x) q = lookup t q \/ (lookup t q = None /\ lookup (mkdirs n t d x) q = Some KDir).
Proof.
  induction n as [|n IH]; intros x t q; [left; reflexivity|]. cbn [mkdirs]. destruct (nth x d 0 =? slash); [|apply IH].
  destruct (IH (S x) (fst (mkdir t (firstn x d))) q) as [E|[E1 E2]]; destruct (mkdir_lookup t (firstn x d) q) as [X|[X1 X2]].
  - left. congruence.
  - right. split; congruence.
  - right. split; congruence.
  - congruence.
Qed.

Lemma mkdir_keeps t name recursive : ctext name -> exists t' ok, Mkdir sgn cwd g2 g3 gr t name recursive = Ok (t', ok) /\
  forall q, lookup t' q = lookup t q \/ (lookup t q = None /\ lookup t' q = Some KDir).
Proof.
  intro C. unfold Mkdir. destruct (absname_total name C) as [o ->]. cbn [bind]. destruct o as [d|]; [|do 2 eexists; split; [reflexivity|auto]].
  set (t1 := if recursive then _ else _). assert (H : forall q, lookup t1 q = lookup t q \/ (lookup t q = None /\ lookup t1 q = Some KDir)).
  { intro q. unfold t1. destruct recursive; [apply mkdirs_lookup|left; reflexivity]. }
  clearbody t1. exists (fst (mkdir t1 d)), (snd (mkdir t1 d)). split; [destruct (mkdir t1 d); reflexivity|]. intro q.
  destruct (H q) as [E|[E1 E2]]; destruct (mkdir_lookup t1 d q) as [X|[X1 X2]].
  - left. congruence.
  - right. split; congruence.
  - right. split; congruence.
  - congruence.
Qed.

(** The directories on the way to [a], itself included, have been made. *)
Definition made (t : tree) (a : path) (t0 : tree) : Prop := forall q, lookup t0 q = if under_dec q a then Some KDir else lookup t q.

Lemma made_step t a c t0 : made t a t0 -> Forall fname (a ++ [c]) -> (lookup t (a ++ [c]) = None \/ lookup t (a ++ [c]) = Some KDir) ->
  made t (a ++ [c]) (fst (mkdir t0 (render (a ++ [c])))) /\ snd (mkdir t0 (render (a ++ [c]))) = match lookup t (a ++ [c]) with None => true | _ => false end.
Proof.
  intros M F L.
  assert (Ls : forall x, under x a -> lookup t0 x = Some KDir) by (intros x U; rewrite M; destruct (under_dec x a); [reflexivity|contradiction]).
  assert (Pl : place_of t0 (render (a ++ [c])) = Some (a ++ [c])).
  { apply place_way; [apply render_ne, app_ne|apply components_render; exact F|exact F|]. intros x y E Hy. destruct (exists_last Hy) as (y' & z & ->).
    rewrite app_assoc in E. apply app_inj_tail in E. destruct E as [E _]. apply Ls. exists y'. exact E. }
  assert (Lc : lookup t0 (a ++ [c]) = lookup t (a ++ [c])).
  { rewrite M. destruct (under_dec (a ++ [c]) a) as [[r Er]|_]; [|reflexivity]. apply (f_equal (@length bytes)) in Er. rewrite !app_length in Er. cbn in Er. lia. }
  assert (U : forall q, under q (a ++ [c]) <-> q = a ++ [c] \/ under q a).
  { intro q. split.
    - intros [r Er]. destruct r as [|z r] using rev_ind; [left; rewrite app_nil_r in Er; congruence|]. right. rewrite app_assoc in Er. apply app_inj_tail in Er. exists r. exact (proj1 Er).
    - intros [-> |[r ->]]; [exists []; rewrite app_nil_r; reflexivity|exists (r ++ [c]); rewrite app_assoc; reflexivity]. }
  unfold mkdir. rewrite Pl, Lc, removelast_last, (Ls a) by (exists []; rewrite app_nil_r; reflexivity).
  destruct L as [L|L]; rewrite L; cbn [fst snd]; (split; [|reflexivity]); intro q.
  - assert (E : lookup ((a ++ [c], KDir) :: t0) q = if path_dec (a ++ [c]) q then Some KDir else lookup t0 q).
    { destruct q as [|x q]; cbn [lookup entry]; [destruct (path_dec (a ++ [c]) []) as [X|_]; [destruct (app_ne a c X)|reflexivity]|reflexivity]. }
    etransitivity; [exact E|]. clear E. destruct (path_dec (a ++ [c]) q) as [<-|Hne].
    + destruct (under_dec (a ++ [c]) (a ++ [c])) as [_|X]; [reflexivity|exfalso; apply X; apply U; left; reflexivity].
    + rewrite M. destruct (under_dec q a) as [U1|U1]; destruct (under_dec q (a ++ [c])) as [U2|U2]; try reflexivity; exfalso; [apply U2, U; right; exact U1|].
      apply U in U2. destruct U2; [congruence|contradiction].
  - rewrite M. destruct (under_dec q a) as [U1|U1]; destruct (under_dec q (a ++ [c])) as [U2|U2]; try reflexivity; [exfalso; apply U2, U; right; exact U1|].
    apply U in U2. destruct U2 as [->|U2]; [exact L|contradiction].
Qed.

Lemma mkdirs_word w : forall u r t, ~ In 47 w -> mkdirs (length (w ++ r)) t (u ++ w ++ r) (length u) = mkdirs (length r) t (u ++ w ++ r) (length (u ++ w)).
Proof.
  induction w as [|c w IH]; intros u r t H; [rewrite app_nil_r; reflexivity|]. cbn [app length mkdirs]. rewrite app_nth2, Nat.sub_diag by lia. cbn [nth].
  destruct (N.eqb_spec c slash) as [X|_]; [exfalso; apply H; left; exact X|].
  specialize (IH (u ++ [c]) r t (fun X => H (or_intror X))). rewrite <- !app_assoc in IH. cbn [app] in IH. rewrite (app_length u [c]) in IH. cbn [length] in IH.
  rewrite Nat.add_1_r in IH. exact IH.
Qed.

Lemma mkdirs_loop t b : forall a c t0, made t a t0 -> Forall fname (a ++ c :: b) -> (forall x, under x (a ++ c :: b) -> lookup t x = None \/ lookup t x = Some KDir) ->
  exists t1 z y, a ++ c :: b = y ++ [z] /\ mkdirs (length (c ++ render b)) t0 (render (a ++ c :: b)) (length (render a ++ [47])) = t1 /\ made t y t1.
Proof.
  induction b as [|c2 b IH]; intros a c t0 M F H.
  - exists t0, c, a. split; [reflexivity|]. split; [|exact M]. cbn [render flat_map]. rewrite render_add.
    replace (render a ++ 47 :: c) with ((render a ++ [47]) ++ c ++ []) by (rewrite app_nil_r, <- app_assoc; reflexivity).
    rewrite mkdirs_word; [reflexivity|]. apply Forall_app in F. destruct F as [_ F]. exact (proj1 (proj2 (Forall_inv F))).
  - assert (Eq : a ++ c :: c2 :: b = (a ++ [c]) ++ c2 :: b) by (rewrite <- app_assoc; reflexivity).
    assert (Fc : fname c) by (apply Forall_app in F; destruct F as [_ F]; exact (Forall_inv F)).
    assert (Fa : Forall fname (a ++ [c])) by (rewrite Eq in F; apply Forall_app in F; exact (proj1 F)).
    destruct (made_step t a c t0 M Fa) as [M1 _]; [apply H; exists (c2 :: b); exact Eq|].
    rewrite Eq in F, H. destruct (IH (a ++ [c]) c2 _ M1 F H) as (t1 & z & y & E1 & E2 & E3). rewrite <- Eq in E1. exists t1, z, y. split; [exact E1|]. split; [|exact E3].
    rewrite <- E2. rewrite Eq. assert (X : render ((a ++ [c]) ++ c2 :: b) = (render a ++ [47]) ++ c ++ render (c2 :: b)).
    { unfold render. rewrite !flat_map_app. cbn [flat_map]. rewrite <- !app_assoc. cbn [app]. rewrite ?app_nil_r, <- ?app_assoc. reflexivity. }
    rewrite X, mkdirs_word by exact (proj1 (proj2 Fc)). change (length (render (c2 :: b))) with (S (length (c2 ++ render b))). cbn [mkdirs].
    change (render (c2 :: b)) with (47 :: c2 ++ render b). rewrite !app_assoc, app_nth2, Nat.sub_diag by lia. cbn [nth]. change (47 =? slash) with true. cbv iota.
    rewrite firstn_app, firstn_all, Nat.sub_diag, app_nil_r. rewrite render_add, <- !app_assoc. cbn [app]. f_equal. rewrite !app_length. cbn [length]. rewrite !app_length. cbn [length]. lia.
Qed.

Lemma mkdir_creates t name : let p := place cwd (unix name) in
  nice sgn name -> proper (hd [] (split (unix name))) -> (length cwd + length name + 3 <= LIM)%nat -> (length (render p) <= LIM)%nat -> p <> [] ->
  (forall x, under x p -> lookup t x = None \/ lookup t x = Some KDir) ->
  exists t', Mkdir sgn cwd g2 g3 gr t name true = Ok (t', match lookup t p with None => true | _ => false end) /\
    (forall q, under q p -> lookup t' q = Some KDir) /\ (forall q, ~ under q p -> lookup t' q = lookup t q).
Proof.
  intros p Nn Pn Len Cap Hp H. unfold Mkdir.
  assert (Fp : Forall fname p) by (apply place_fname; [exact Ccwd|apply unix_ctext; exact (nice_ctext _ _ Nn)]).
  rewrite absname_at by assumption. fold p. cbn [bind]. clearbody p. destruct p as [|c b]; [congruence|].
  change (after_slash (render (c :: b))) with 1%nat. replace (length (render (c :: b)) - 1)%nat with (length (c ++ render b)) by (change (render (c :: b)) with (47 :: c ++ render b); cbn [length]; lia).
  destruct (mkdirs_loop t b [] c t) as (t1 & z & y & E1 & E2 & E3); [|exact Fp|exact H|].
  { intro q. destruct (under_dec q []) as [[r Er]|_]; [|reflexivity]. symmetry in Er. apply app_eq_nil in Er. destruct Er as [-> _]. reflexivity. }
  cbn [app render flat_map length] in E2. change (flat_map (fun c0 => 47 :: c0) b) with (render b) in E2. change (47 :: c ++ render b) with (render (c :: b)) in E2.
  cbn [app] in E1. rewrite E2, E1 in *. destruct (made_step t y z t1 E3 Fp) as [M1 S1]; [apply H; exists []; rewrite app_nil_r; reflexivity|].
  exists (fst (mkdir t1 (render (y ++ [z])))). split; [rewrite <- S1; destruct (mkdir t1 (render (y ++ [z]))); reflexivity|].
  split; intros q U; rewrite M1; destruct (under_dec q (y ++ [z])); congruence || contradiction || reflexivity.
Qed.
End Dir.
