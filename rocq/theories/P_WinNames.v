(** Proofs about M_WinNames. *)
From Verif Require Import Base S_Numeral S_Name S_WinNames M_Name M_WinNames P_Name.
Open Scope N_scope.

(** The names of a class, as texts *)
Definition names (c : class) (name : bytes) (size : N) : list bytes :=
  match c with
  | CMutex | CSemaphore | CEvent => [name]
  | CReadWrite => [name ++ rw_text ++ [48]; name ++ rw_text ++ [49]; name ++ rw_text ++ [50]; name ++ rw_text ++ [51]]
  | CSharedMem => [name ++ 45 :: utoa 10 (size mod 2 ^ 32) [] ++ shm_text]
  end.
Definition kinds (c : class) : list kind :=
  match c with
  | CMutex => [KMutex] | CSemaphore => [KSemaphore] | CEvent => [KEvent]
  | CReadWrite => [KSemaphore; KSemaphore; KEvent; KSemaphore] | CSharedMem => [KMapping]
  end.

Lemma utoa_length f : forall n acc, (length (utoa f n acc) <= f + length acc)%nat.
Proof.
  induction f as [|f IH]; intros n acc; cbn [utoa]; [lia|]. destruct (n / 10 =? 0); [cbn [length]; lia|]. specialize (IH (n / 10) (48 + n mod 10 :: acc)). cbn [length] in IH. lia.
Qed.
Lemma made_ok cap init txt : text txt -> (length txt < cap)%nat -> made cap init txt = Ok txt.
Proof.
  intros T L. unfold made. rewrite blit_in by (rewrite repeat_length, app_length; cbn [length]; lia). cbn [bind firstn app]. rewrite <- app_assoc. cbn [app]. apply cstr_text.
  eapply Forall_impl; [|exact T]. cbv beta. intros; lia.
Qed.
Lemma utoa_text n : n < W32 -> text (utoa 10 n []).
Proof. intro H. eapply Forall_impl; [|exact (decimal_digits _ _ (utoa_decimal n H))]. cbv beta. intros; lia. Qed.
Lemma text_app a b : text a -> text b -> text (a ++ b).
Proof. intros. apply Forall_app. auto. Qed.
Lemma rw_text_text d : 48 <= d < 52 -> text (rw_text ++ [d]).
Proof. intro. unfold rw_text, text. repeat (constructor; [lia|]). constructor. Qed.
Lemma shm_text_text : text shm_text.
Proof. unfold shm_text, text. repeat (constructor; [lia|]). constructor. Qed.

Lemma calls_ok init c name size : text name -> calls init c name size = Ok (combine (kinds c) (names c name size)).
Proof.
  intro T. destruct c; cbn [calls names kinds combine]; try reflexivity.
  - cbv zeta. fold rw_text. rewrite !made_ok by (try (apply text_app; [exact T|apply rw_text_text; lia]); rewrite app_length; cbn [length rw_text app]; lia). reflexivity.
  - assert (W : size mod 2 ^ 32 < W32) by (apply N.mod_lt; discriminate). fold shm_text. change W32 with (2 ^ 32) in *. rewrite made_ok; [reflexivity| |].
    + apply text_app; [exact T|]. apply text_app; [repeat constructor; lia|]. apply text_app; [apply utoa_text; exact W|exact shm_text_text].
    + pose proof (utoa_length 10 (size mod 2 ^ 32) []). rewrite !app_length. cbn [length shm_text] in *. lia.
Qed.

(** ** Which names are the same *)
Lemma tail_eq {A} (a b x y : list A) : length x = length y -> a ++ x = b ++ y -> a = b /\ x = y.
Proof.
  intros L E. assert (La : length a = length b) by (apply (f_equal (@length A)) in E; rewrite !app_length in E; lia). revert b La E. induction a as [|c a IH]; intros [|d b] La E; cbn in La; try discriminate; [auto|].
  cbn in E. injection E as -> E. destruct (IH b ltac:(lia) E) as [-> ->]. auto.
Qed.
Lemma dash_right a b x y : Forall (fun c => c <> 45) x -> Forall (fun c => c <> 45) y -> a ++ 45 :: x = b ++ 45 :: y -> a = b /\ x = y.
Proof.
  intros Fx Fy E. apply (f_equal (@rev N)) in E. rewrite !rev_app_distr in E. cbn [rev] in E. rewrite <- !app_assoc in E. cbn [app] in E.
  destruct (split_dash (rev x) (rev y) (rev a) (rev b)) as [E1 E2]; [apply Forall_rev; exact Fx|apply Forall_rev; exact Fy|exact E|].
  rewrite <- (rev_involutive a), <- (rev_involutive x), E1, E2, !rev_involutive. auto.
Qed.
Lemma decimal_nodash n d : decimal n d -> Forall (fun c => c <> 45) d.
Proof. intro H. eapply Forall_impl; [|exact (decimal_digits _ _ H)]. cbv beta. intros; lia. Qed.
Lemma shm_eq n1 n2 s1 s2 : n1 ++ 45 :: utoa 10 (s1 mod 2 ^ 32) [] ++ shm_text = n2 ++ 45 :: utoa 10 (s2 mod 2 ^ 32) [] ++ shm_text -> n1 = n2 /\ s1 mod 2 ^ 32 = s2 mod 2 ^ 32.
Proof.
  intro E. assert (D : forall s, decimal (s mod 2 ^ 32) (utoa 10 (s mod 2 ^ 32) [])) by (intro s; apply utoa_decimal; apply N.mod_lt; discriminate).
  assert (R : forall n s, n ++ 45 :: utoa 10 (s mod 2 ^ 32) [] ++ shm_text = (n ++ 45 :: utoa 10 (s mod 2 ^ 32) []) ++ shm_text) by (intros; rewrite <- app_assoc; reflexivity).
  rewrite !R in E. destruct (tail_eq _ _ _ _ eq_refl E) as [E1 _]. destruct (dash_right _ _ _ _ (decimal_nodash _ _ (D s1)) (decimal_nodash _ _ (D s2)) E1) as [-> E2]. split; [reflexivity|].
  pose proof (D s1) as D1. rewrite E2 in D1. exact (decimal_unique _ _ _ D1 (D s2)).
Qed.
Lemma rw_shm n1 n2 d s : 48 <= d < 52 -> n1 ++ rw_text ++ [d] <> n2 ++ 45 :: utoa 10 s [] ++ shm_text.
Proof.
  intros Hd E. unfold shm_text in E. change [45; 83; 121; 110; 99; 95; 83; 104; 97; 114; 101; 100; 77; 101; 109] with ([45; 83; 121; 110; 99; 95; 83; 104; 97; 114; 101; 100; 77; 101] ++ [109]) in E.
  rewrite app_comm_cons, !app_assoc in E. apply app_inj_tail in E. destruct E. lia.
Qed.
Lemma rw_in n s x : In x (names CReadWrite n s) <-> exists d, 48 <= d < 52 /\ x = n ++ rw_text ++ [d].
Proof.
  cbn [names In]. split.
  - intros [<-|[<-|[<-|[<-|[]]]]]; [exists 48|exists 49|exists 50|exists 51]; split; try reflexivity; lia.
  - intros (d & Hd & ->). assert (d = 48 \/ d = 49 \/ d = 50 \/ d = 51) as [->|[->|[->| ->]]] by lia; auto.
Qed.
Lemma shm_decimal n s d : decimal (s mod 2 ^ 32) d -> names CSharedMem n s = [n ++ 45 :: d ++ shm_text].
Proof.
  intros (l & D & ->). cbn [names]. destruct (utoa_decimal (s mod 2 ^ 32) ltac:(apply N.mod_lt; discriminate)) as (l2 & D2 & ->). rewrite (numeral_unique 10 _ l l2 ltac:(lia) D D2). reflexivity.
Qed.
Lemma simple_names c n s : simple c -> names c n s = [n].
Proof. destruct c; cbn; intros []; reflexivity. Qed.

Lemma meet_iff c1 n1 s1 c2 n2 s2 : meet c1 n1 s1 c2 n2 s2 <-> exists x, In x (names c1 n1 s1) /\ In x (names c2 n2 s2).
Proof.
  assert (SC : forall c, simple c \/ c = CReadWrite \/ c = CSharedMem) by (intros []; cbn; auto).
  split.
  - destruct 1 as [c1 c2 n s1 s2 H1 H2|n s1 s2|n s1 s2 E|c n s1 s2 d H Hd|c n s1 s2 d H Hd|c n s1 s2 d H Hd|c n s1 s2 d H Hd].
    + exists n. rewrite !simple_names by assumption. cbn. auto.
    + exists (n ++ rw_text ++ [48]). cbn. auto.
    + eexists. cbn [names In]. rewrite E. auto.
    + exists (n ++ rw_text ++ [d]). rewrite (simple_names c) by exact H. split; [cbn; auto|]. apply rw_in. eauto.
    + exists (n ++ rw_text ++ [d]). rewrite (simple_names c) by exact H. split; [|cbn; auto]. apply rw_in. eauto.
    + eexists. rewrite (simple_names c) by exact H. rewrite (shm_decimal n s2 d Hd). split; left; reflexivity.
    + eexists. rewrite (simple_names c) by exact H. rewrite (shm_decimal n s1 d Hd). split; left; reflexivity.
  - intros (x & I1 & I2). assert (D : forall s, decimal (s mod 2 ^ 32) (utoa 10 (s mod 2 ^ 32) [])) by (intro s; apply utoa_decimal; apply N.mod_lt; discriminate).
    destruct (SC c1) as [H1|[->| ->]]; destruct (SC c2) as [H2|[->| ->]]; rewrite ?(simple_names c1), ?(simple_names c2) in * by assumption.
    + cbn in I1, I2. destruct I1 as [->|[]]. destruct I2 as [->|[]]. constructor; assumption.
    + cbn [In] in I1. destruct I1 as [->|[]]. apply rw_in in I2. destruct I2 as (d & Hd & ->). constructor; assumption.
    + cbn [In names] in I1, I2. destruct I1 as [->|[]]. destruct I2 as [<-|[]]. constructor; [assumption|apply D].
    + cbn [In] in I2. destruct I2 as [->|[]]. apply rw_in in I1. destruct I1 as (d & Hd & ->). constructor; assumption.
    + apply rw_in in I1. apply rw_in in I2. destruct I1 as (d & Hd & ->). destruct I2 as (d' & Hd' & E). destruct (tail_eq n1 n2 (rw_text ++ [d]) (rw_text ++ [d']) eq_refl E) as [-> _]. apply meet_rw.
    + exfalso. apply rw_in in I1. destruct I1 as (d & Hd & ->). cbn [In names] in I2. destruct I2 as [E|[]]. symmetry in E. exact (rw_shm _ _ _ _ Hd E).
    + cbn [In names] in I1, I2. destruct I2 as [->|[]]. destruct I1 as [<-|[]]. constructor; [assumption|apply D].
    + exfalso. apply rw_in in I2. destruct I2 as (d & Hd & ->). cbn [In names] in I1. destruct I1 as [E|[]]. symmetry in E. exact (rw_shm _ _ _ _ Hd E).
    + cbn [In names] in I1, I2. destruct I1 as [<-|[]]. destruct I2 as [E|[]]. destruct (shm_eq _ _ _ _ E) as [-> E2]. apply meet_shm. congruence.
Qed.

(** ** The kernel *)
Lemma find_app k k' nm i : find_name (k ++ k') nm i = match find_name k nm i with Some r => Some r | None => find_name k' nm (i + length k) end.
Proof.
  revert i. induction k as [|[m t] k IH]; intro i; cbn [app find_name length]; [f_equal; lia|]. destruct (list_eq_dec N.eq_dec m nm); [reflexivity|]. rewrite IH. replace (S i + length k)%nat with (i + S (length k))%nat by lia. reflexivity.
Qed.
Lemma find_bound k nm : forall i j t, find_name k nm i = Some (j, t) -> (i <= j < i + length k)%nat /\ nth_error k (j - i) = Some (nm, t).
Proof.
  induction k as [|[m t'] k IH]; intros i j t; cbn [find_name length]; [discriminate|]. destruct (list_eq_dec N.eq_dec m nm) as [->|Ne].
  - intros [= <- <-]. split; [lia|]. rewrite Nat.sub_diag. reflexivity.
  - intro E. destruct (IH _ _ _ E) as [B Q]. split; [lia|]. replace (j - i)%nat with (S (j - S i)) by lia. exact Q.
Qed.

(** what one call does *)
Lemma kcreate_spec k t nm k' o : kcreate k t nm = (k', o) ->
  (exists x, k' = k ++ x /\ (forall e, In e x -> fst e = nm)) /\ (forall i, o = Some i -> nth_error k' i = Some (nm, t)).
Proof.
  unfold kcreate. destruct (find_name k nm 0) as [[i t']|] eqn:E; intros [= <- <-].
  - split; [exists []; rewrite app_nil_r; split; [reflexivity|intros e []]|]. intros j Ej. destruct (kind_eqb t t') eqn:Q; [|discriminate]. injection Ej as <-. destruct (find_bound _ _ _ _ _ E) as [_ N]. rewrite Nat.sub_0_r in N.
    destruct t, t'; try discriminate; exact N.
  - split; [exists [(nm, t)]; split; [reflexivity|]; intros e [<-|[]]; reflexivity|]. intros j [= <-]. rewrite nth_error_app2, Nat.sub_diag by lia. reflexivity.
Qed.
Lemma make_all_spec l : forall k k' os, make_all k l = (k', os) ->
  (exists x, k' = k ++ x /\ (forall e, In e x -> In (fst e) (map snd l))) /\
  (forall i, In (Some i) os -> exists e, nth_error k' i = Some e /\ In (fst e) (map snd l)).
Proof.
  induction l as [|[t nm] l IH]; intros k k' os; cbn [make_all].
  - intros [= <- <-]. split; [exists []; rewrite app_nil_r; split; [reflexivity|intros e []]|]. intros i [].
  - destruct (kcreate k t nm) as [k1 o] eqn:E1. destruct (make_all k1 l) as [k2 os2] eqn:E2. intros [= <- <-].
    destruct (kcreate_spec _ _ _ _ _ E1) as [(x & -> & X) O1]. destruct (IH _ _ _ E2) as [(y & -> & Y) O2]. split.
    + exists (x ++ y). rewrite app_assoc. split; [reflexivity|]. intros e I. apply in_app_or in I. destruct I as [I|I]; cbn [map In snd]; [left; symmetry; apply X; exact I|right; apply Y; exact I].
    + intros i [->|I].
      * exists (nm, t). split; [|cbn; auto]. rewrite nth_error_app1; [apply O1; reflexivity|]. apply nth_error_Some. rewrite (O1 i eq_refl). discriminate.
      * destruct (O2 i I) as (e & N & J). exists e. split; [exact N|cbn; auto].
Qed.
Lemma find_none k nm : forall i, find_name k nm i = None <-> ~ In nm (map fst k).
Proof.
  induction k as [|[m t] k IH]; intro i; cbn [find_name map In fst]; [tauto|]. destruct (list_eq_dec N.eq_dec m nm) as [->|Ne]; [split; [discriminate|tauto]|]. rewrite IH. tauto.
Qed.
(** Other names do not matter for the results. *)
Definition ok (os : list (option nat)) : bool := forallb (fun o : option nat => match o with Some _ => true | None => false end) os.
Definition like (P : bytes -> Prop) (k k' : kernel) : Prop := forall nm, P nm -> option_map snd (find_name k nm 0) = option_map snd (find_name k' nm 0).
Lemma kcreate_like (P : bytes -> Prop) k k' t nm : like P k k' -> P nm ->
  like P (fst (kcreate k t nm)) (fst (kcreate k' t nm)) /\ (snd (kcreate k t nm) = None <-> snd (kcreate k' t nm) = None).
Proof.
  intros L Hn. pose proof (L nm Hn) as E. unfold kcreate. destruct (find_name k nm 0) as [[i t1]|] eqn:E1; destruct (find_name k' nm 0) as [[j t2]|] eqn:E2; cbn [option_map snd] in E; try discriminate; cbn [fst snd].
  - injection E as ->. split; [exact L|]. destruct (kind_eqb t t2); split; intro; (discriminate || reflexivity).
  - split; [|split; discriminate]. intros m Hm. rewrite !find_app. specialize (L m Hm). destruct (find_name k m 0) as [[a ta]|]; destruct (find_name k' m 0) as [[b tb]|]; cbn [option_map snd] in L |- *; try discriminate; [exact L|].
    cbn [find_name]. destruct (list_eq_dec N.eq_dec nm m); reflexivity.
Qed.
Lemma make_all_like (P : bytes -> Prop) l : (forall e, In e l -> P (snd e)) -> forall k k', like P k k' -> ok (snd (make_all k l)) = ok (snd (make_all k' l)).
Proof.
  induction l as [|[t nm] l IH]; intros H k k' L; cbn [make_all]; [reflexivity|].
  destruct (kcreate_like P k k' t nm L (H _ (or_introl eq_refl))) as [L' S]. destruct (kcreate k t nm) as [k1 o1]. destruct (kcreate k' t nm) as [k2 o2]. cbn [fst snd] in *.
  specialize (IH (fun e I => H e (or_intror I)) k1 k2 L'). destruct (make_all k1 l) as [k3 os3]. destruct (make_all k2 l) as [k4 os4]. cbn [snd ok forallb] in *. unfold ok in IH. rewrite IH. f_equal.
  destruct o1, o2; try reflexivity; [pose proof (proj2 S eq_refl)|pose proof (proj1 S eq_refl)]; discriminate.
Qed.
Lemma like_app (P : bytes -> Prop) k x : (forall e, In e x -> ~ P (fst e)) -> like P k (k ++ x).
Proof.
  intros H nm Hn. rewrite find_app. destruct (find_name k nm 0) as [r|] eqn:E; [reflexivity|]. assert (Z : forall i, find_name x nm i = None). { intro i. apply find_none. intro I. apply in_map_iff in I. destruct I as (e & <- & I). exact (H e I Hn). }
  rewrite Z. reflexivity.
Qed.
Lemma combine_names c name size : map snd (combine (kinds c) (names c name size)) = names c name size.
Proof. destruct c; reflexivity. Qed.
