(** C133-C135: the places names denote, links made by Symlink, and Realpath (POSIX). *)
From Verif Require Import Base S_Utf8 S_Path S_Tree S_Where M_Path M_Dir M_Where P_MixedVar P_Path P_Dir P_Where Prop_Dir.
From Coq Require Import String Ascii.
Open Scope N_scope.

(** The current directory is the directory [wd] of the tree. *)
Definition working (t : tree) (wd : path) (cwd : bytes) : Prop := sound t /\ lookup t wd = Some KDir /\ cwd = text_of wd.

(** ** C133 *)

(** For every name without ".." that ends in a name and does not begin with ".", whatever links
    are in the tree: the calls on directories and those on files hand the system texts that lead
    to the same place, or to no place both. *)
Theorem C133_same : forall sgn cwd g2 g3 gr g t wd name, machine cwd g2 g3 gr -> working t wd cwd -> (forall d, List.length (g d) = S LIM) ->
  let n := unix name in
  nice sgn name -> (List.length cwd + List.length name + 3 <= LIM)%nat -> (List.length (render (place cwd n)) <= LIM)%nat ->
  hd [] (split n) <> [46] -> ~ In [46; 46] (split n) -> last (split n) [] <> [] -> last (split n) [] <> [46] ->
  exists d f, absname sgn cwd g2 g3 gr name = Ok (Some d) /\ platname sgn g name = Ok (Some f) /\ place_of t d = place_in t wd f.
Proof.
  intros sgn cwd g2 g3 gr g t wd name (G & Cc & Ac & Pc) (So & Wd & ->) Lg n Nn Len Cap H1 H2 H3 H4.
  assert (Fw : Forall fname wd) by (apply (sound_fname t); [exact So|rewrite Wd; discriminate]).
  assert (Pn : proper (hd [] (split n))).
  { split; [exact H1|]. intro X. apply H2. pose proof (split_ne n). destruct (split n); [congruence|left; exact X]. }
  exists (render (place (text_of wd) n)), n. split; [apply absname_at; assumption || (intro d; apply (G d))|]. split.
  - unfold platname. rewrite gpf_nice by (assumption || (rewrite Lg; lia)). cbn [bind]. rewrite cstr_app by exact (nice_nz _ _ Nn). reflexivity.
  - refine (proj1 (same_place t wd n Fw (sound_road t wd So Wd) _ _ H2 (conj H3 H4))).
    + destruct Nn as [Hn _]. unfold n. destruct name; [congruence|discriminate].
    + apply unix_ctext. exact (nice_ctext _ _ Nn).
Qed.

(** Without links, the same for all names that lead to a place other than the root, with ".." too. *)
Theorem C133_no_links : forall sgn cwd g2 g3 gr g t wd name p, machine cwd g2 g3 gr -> working t wd cwd -> (forall d, List.length (g d) = S LIM) ->
  let n := unix name in
  nice sgn name -> (List.length cwd + List.length name + 3 <= LIM)%nat -> (List.length (render p) <= LIM)%nat ->
  proper (hd [] (split n)) -> linkless t -> place_in t wd n = Some p -> p <> [] ->
  exists d, absname sgn cwd g2 g3 gr name = Ok (Some d) /\ platname sgn g name = Ok (Some n) /\ place_of t d = Some p.
Proof.
  intros sgn cwd g2 g3 gr g t wd name p (G & Cc & Ac & Pc) (So & Wd & ->) Lg n Nn Len Cap Pn Ll E Hp.
  assert (Fw : Forall fname wd) by (apply (sound_fname t); [exact So|rewrite Wd; discriminate]).
  assert (Cn : ctext n) by (apply unix_ctext; exact (nice_ctext _ _ Nn)).
  destruct (linkless_place t wd n p Ll So Fw Wd Cn E Hp) as [E1 E2].
  exists (render p). split; [rewrite <- E1; apply absname_at; try assumption; try (intro d; apply (G d)); fold n; rewrite E1; exact Cap|]. split; [|exact E2].
  unfold platname. rewrite gpf_nice by (assumption || (rewrite Lg; lia)). cbn [bind]. rewrite cstr_app by exact (nice_nz _ _ Nn). reflexivity.
Qed.

Definition upname (l x : bytes) : bytes := l ++ 47 :: 46 :: 46 :: 47 :: x.

(** Through a link and back: for every link in the current directory to a directory elsewhere,
    Stat and all other calls on files take "link/../x" to be the entry x beside the target, but
    Rmdir removes the directory x beside the link. *)
Theorem C133_link_refuted : forall sgn cwd g2 g3 gr t wd l x q fuel, machine cwd g2 g3 gr -> working t wd cwd -> fname l -> fname x ->
  nice sgn (upname l x) -> ~ In 92 (upname l x) -> (List.length cwd + List.length (upname l x) + 3 <= LIM)%nat ->
  lookup t (wd ++ [l]) = Some (KLink q) -> Forall fname q -> q <> [] -> lookup t q = Some KDir -> removelast q <> wd ->
  lookup t (wd ++ [x]) = Some KDir -> children t (wd ++ [x]) = [] ->
  place_in t wd (upname l x) = Some (removelast q ++ [x]) /\ removelast q ++ [x] <> wd ++ [x] /\
  exists t', Rmdir sgn cwd g2 g3 gr fuel t (upname l x) false = Ok (t', true) /\ lookup t' (wd ++ [x]) = None /\
    (forall p, p <> wd ++ [x] -> lookup t' p = lookup t p).
Proof.
  intros sgn cwd g2 g3 gr t wd l x q fuel (G & Cc & Ac & Pc) (So & Wd & ->) Fl Fx Nn Nb Len Ll Fq Hq Lq Ne Lx Ch.
  assert (Fw : Forall fname wd) by (apply (sound_fname t); [exact So|rewrite Wd; discriminate]).
  pose proof Fl as (L0 & L1 & _ & L2 & L3). pose proof Fx as (X0 & X1 & _ & X2 & X3).
  assert (Sp : split (upname l x) = [l; [46; 46]; x]).
  { unfold upname. rewrite split_word by exact L1. change (46 :: 46 :: 47 :: x) with ([46; 46] ++ 47 :: x).
    rewrite split_word by (intros [Y|[Y|[]]]; discriminate). rewrite split_one by exact X1. reflexivity. }
  assert (Hd : (hd 0 (upname l x) =? 47) = false).
  { destruct l as [|c l]; [congruence|]. apply N.eqb_neq. intro Y. apply L1. left. exact Y. }
  assert (Un : unix (upname l x) = upname l x) by (apply unix_same; exact Nb).
  split; [|split].
  - rewrite place_in_start by (destruct l; discriminate). unfold start. rewrite Hd. unfold steps. rewrite Sp. cbn [map].
    destruct l as [|c l]; [congruence|]. destruct x as [|d x]; [congruence|]. rewrite walk_step by (assumption || discriminate). rewrite Ll.
    unfold LINKS. rewrite road_walk by (try exact Fq; try discriminate; exact (sound_road t q So Lq)). rewrite walk_up. apply walk_one; assumption.
  - intro Y. apply app_inj_tail in Y. destruct Y as [Y _]. exact (Ne Y).
  - assert (Pl : place (text_of wd) (unix (upname l x)) = wd ++ [x]).
    { rewrite Un, place_start by exact Fw. unfold start. rewrite Hd, Sp. cbn [resolve].
      destruct (list_eq_dec N.eq_dec l []); [congruence|]. destruct (list_eq_dec N.eq_dec l [46]); [congruence|]. destruct (list_eq_dec N.eq_dec l [46; 46]); [congruence|].
      cbn. rewrite removelast_last. destruct (list_eq_dec N.eq_dec x []); [congruence|]. destruct (list_eq_dec N.eq_dec x [46]); [congruence|].
      destruct (list_eq_dec N.eq_dec x [46; 46]); [congruence|]. reflexivity. }
    assert (Fp : Forall fname (wd ++ [x])) by (apply Forall_app; split; [exact Fw|constructor; [exact Fx|constructor]]).
    assert (E : place_of t (render (wd ++ [x])) = Some (wd ++ [x])).
    { apply place_way; [apply render_ne, app_ne|apply components_render; exact Fp|exact Fp|]. apply road_way. exact (sound_road t wd So Wd). }
    exists (del t (wd ++ [x])). split; [|split].
    + unfold Rmdir. rewrite absname_at; try assumption; try (intro d; apply (G d)).
      * rewrite Pl. cbn [bind]. unfold rmdir. rewrite E. destruct (wd ++ [x]) as [|y ys] eqn:Ey; [destruct (app_ne _ _ Ey)|]. rewrite Lx, Ch. reflexivity.
      * rewrite Un, Sp. split; assumption.
      * rewrite Pl, render_add, app_length. unfold upname in Len. rewrite app_length in Len. cbn [List.length] in *.
        assert (List.length (render wd) <= List.length (text_of wd))%nat by (destruct wd; cbn; lia). lia.
    + rewrite lookup_del by apply app_ne. destruct (path_dec _ _); [reflexivity|congruence].
    + intros p Hp. rewrite lookup_del by apply app_ne. destruct (path_dec _ _); [congruence|reflexivity].
Qed.

(** The root can be examined but not be opened: Dir::Open fails on every name that leads there. *)
Theorem C133_root_refuted : forall sgn cwd g2 g3 gr t name, machine cwd g2 g3 gr -> nice sgn name -> proper (hd [] (split (unix name))) ->
  (List.length cwd + List.length name + 3 <= LIM)%nat -> place cwd (unix name) = [] ->
  dir_open sgn cwd g2 g3 gr t name = Ok None.
Proof.
  intros sgn cwd g2 g3 gr t name (G & Cc & Ac & Pc) Nn Pn Len Pl. unfold dir_open.
  rewrite absname_at; try assumption; try (intro d; apply (G d)); rewrite Pl; [reflexivity|cbn; lia].
Qed.

(** Exists tells whether there is a file or directory behind the name and any links. *)
Theorem C133_exists : forall sgn g t wd name, (forall d, List.length (g d) = S LIM) -> nice sgn name -> (List.length name < LIM)%nat ->
  exists b, Exists_ sgn wd g t name = Ok b /\
    (b = true <-> exists p k, file_in t wd (unix name) = Some p /\ lookup t p = Some k /\ forall q, k <> KLink q).
Proof.
  intros sgn g t wd name Lg Nn Len. unfold Exists_, Stat, platname. rewrite gpf_nice by (assumption || (rewrite Lg; lia)). cbn [bind].
  rewrite cstr_app by exact (nice_nz _ _ Nn). cbn [bind]. eexists. split; [reflexivity|]. unfold stat_in.
  destruct (file_in t wd (unix name)) as [p|] eqn:E.
  - assert (X : exists k, lookup t p = Some k /\ forall q, k <> KLink q).
    { unfold file_in in E. destruct (place_in t wd (unix name)) as [q|]; [|discriminate]. exact (follow_end t _ _ _ E). }
    destruct X as (k & Lk & Nk). rewrite Lk. split; [intros _; exists p, k; auto|reflexivity].
  - split; [discriminate|]. intros (p & k & X & _). discriminate.
Qed.

Definition wtree : tree :=
  [([chars "w"], KDir); ([chars "a"], KDir); ([chars "a"; chars "b"], KDir); ([chars "a"; chars "x"], KDir);
   ([chars "w"; chars "l"], KLink [chars "a"; chars "b"]); ([chars "w"; chars "x"], KDir)].

(** Names that begin with "./": Stat finds the directory, Dir::Open, Mkdir and Rmdir refuse the name. *)
Theorem C133_dot_refuted : forall sgn, exists name, Stat sgn [chars "w"] blanks wtree name false = Ok (Some KDir) /\
  dir_open sgn (chars "/w") blanks blanks blanks wtree name = Ok None /\
  Rmdir sgn (chars "/w") blanks blanks blanks 9 wtree name false = Ok (wtree, false).
Proof. intro sgn. exists (chars "./x"). destruct sgn; repeat split; vm_compute; reflexivity. Qed.

Example C133_ex : place_in wtree [chars "w"] (chars "l/../x") = Some [chars "a"; chars "x"] /\
  place_in wtree [chars "w"] (chars "x/./") = Some [chars "w"; chars "x"] /\
  (exists t', Rmdir true (chars "/w") blanks blanks blanks 9 wtree (chars "l/../x") false = Ok (t', true) /\
     lookup t' [chars "w"; chars "x"] = None /\ lookup t' [chars "a"; chars "x"] = Some KDir) /\
  dir_open true (chars "/w") blanks blanks blanks wtree (chars "l") = Ok (Some [[46]; [46; 46]]) /\
  dir_open true (chars "/w") blanks blanks blanks wtree (chars "/") = Ok None /\
  Stat true [chars "w"] blanks wtree (chars "/") false = Ok (Some KDir) /\
  Exists_ true [chars "w"] blanks (([chars "w"; chars "m"], KLink [chars "none"]) :: wtree) (chars "m") = Ok false.
Proof. repeat split; try (vm_compute; reflexivity). eexists. repeat split; vm_compute; reflexivity. Qed.

(** ** C134 *)

(** For every name of permitted characters without a backslash: a link made by Symlink is seen by
    Stat, read by Readlink, and removed by Delete under the name it was made with, and then
    everything is as before. *)
Theorem C134_usable : forall sgn g t wd name q p b, (forall d, List.length (g d) = S LIM) ->
  nice sgn name -> ~ In 92 name -> (List.length name < LIM)%nat -> Forall fname q -> q <> [] ->
  place_in t wd name = Some p -> p <> [] -> lookup t p = None -> lookup t (removelast p) = Some KDir -> (List.length (render q) < List.length b)%nat ->
  exists t1 t2 b', Symlink wd t name (render q) = (t1, true) /\ lookup t1 p = Some (KLink q) /\
    (forall r, r <> p -> lookup t1 r = lookup t r) /\
    Stat sgn wd g t1 name true = Ok (Some (KLink q)) /\ Readlink_at wd t1 b name = (b', true) /\ firstn (List.length (render q)) b' = render q /\
    Delete sgn wd g t1 name = Ok (t2, true) /\ forall r, lookup t2 r = lookup t r.
Proof.
  intros sgn g t wd name q p b Lg Nn Nb Len Fq Hq Pl Hp Ln Lp Cap.
  assert (Pn : platname sgn g name = Ok (Some name)).
  { unfold platname. rewrite gpf_nice by (assumption || (rewrite Lg; lia)). cbn [bind]. rewrite unix_same by exact Nb.
    rewrite cstr_app; [reflexivity|]. pose proof (nice_nz _ _ Nn) as X. rewrite unix_same in X by exact Nb. exact X. }
  set (t1 := (p, KLink q) :: t).
  assert (P1 : place_in t1 wd name = Some p) by (apply (place_in_sub t); [apply sub_add; exact Ln|exact Pl]).
  assert (L1 : forall r, lookup t1 r = if path_dec p r then Some (KLink q) else lookup t r) by (intro r; apply lookup_add; exact Hp).
  assert (L1p : lookup t1 p = Some (KLink q)) by (rewrite L1; destruct (path_dec p p); [reflexivity|congruence]).
  exists t1, (del t1 p). unfold Readlink_at, readlink_in, lstat_in. rewrite P1, L1p.
  assert (Tq : text_of q = render q) by (destruct q; [congruence|reflexivity]). rewrite Tq. unfold Readlink.
  rewrite (firstn_all2 (render q)) by lia.
  exists (render q ++ skipn (List.length (render q)) b). split.
  { unfold Symlink, symlink_in. rewrite Pl, Ln, Lp, components_render by exact Fq. reflexivity. }
  split; [reflexivity|]. split.
  { intros r Hr. rewrite L1. destruct (path_dec p r); [congruence|reflexivity]. }
  split; [unfold Stat; rewrite Pn; cbn [bind]; unfold lstat_in; rewrite P1, L1p; reflexivity|].
  split; [f_equal; apply Nat.ltb_lt; exact Cap|].
  split; [rewrite firstn_app, firstn_all, Nat.sub_diag; cbn [firstn]; apply app_nil_r|].
  split; [unfold Delete; rewrite Pn; cbn [bind]; unfold unlink_in; rewrite P1, L1p; reflexivity|].
  intro r. rewrite lookup_del by exact Hp. rewrite L1. destruct (path_dec p r) as [<-|]; [symmetry; exact Ln|reflexivity].
Qed.

(** Symlink takes every name the system takes.  With a character in it that the other calls refuse,
    the link is made, but neither Stat nor Delete ever accepts the name again. *)
Theorem C134_refused_refuted : forall sgn g t (wd : path) (name : bytes) q p, byteList name -> Exists (fun c => ~ permitted c) name -> Forall fname q ->
  place_in t wd name = Some p -> lookup t p = None -> lookup t (removelast p) = Some KDir ->
  Symlink wd t name (render q) = ((p, KLink q) :: t, true) /\
  forall t' link, Stat sgn wd g t' name link = Ok None /\ Delete sgn wd g t' name = Ok (t', false).
Proof.
  intros sgn g t wd name q p B X Fq Pl Ln Lp. split.
  - unfold Symlink, symlink_in. rewrite Pl, Ln, Lp, components_render by exact Fq. reflexivity.
  - intros t' link. assert (Y : exists r, GetPlatformFilename sgn (g name) name = Ok (r, false)).
    { apply gpf_bad; [exact B|]. apply Exists_exists in X. destruct X as (c & Hc & Np). apply Exists_exists. exists c. split; [exact Hc|].
      unfold byteList in B. rewrite Forall_forall in B. specialize (B c Hc). unfold isByte in B. unfold permitted in Np. unfold bad_char. destruct sgn; lia. }
    destruct Y as (r & E). unfold Stat, Delete, platname. rewrite E. split; reflexivity.
Qed.

(** With a backslash in the name, the link is made in the current directory, and Delete removes
    another file: the one in the directory before the backslash. *)
Theorem C134_backslash_refuted : forall sgn g t (wd : path) (a b : bytes) (q : path), (forall d, List.length (g d) = S LIM) -> sound t -> lookup t wd = Some KDir ->
  fname a -> fname b -> ~ In 92 a -> ~ In 92 b -> let name : bytes := a ++ 92 :: b in
  nice sgn name -> (List.length name < LIM)%nat -> Forall fname q ->
  lookup t (wd ++ [name]) = None -> lookup t (wd ++ [a]) = Some KDir -> lookup t (wd ++ [a; b]) = Some KFile ->
  exists t1 t2, Symlink wd t name (render q) = (t1, true) /\ lookup t1 (wd ++ [name]) = Some (KLink q) /\
    Delete sgn wd g t1 name = Ok (t2, true) /\ lookup t2 (wd ++ [a; b]) = None /\ lookup t2 (wd ++ [name]) = Some (KLink q).
Proof.
  intros sgn g t wd a b q Lg So Wd Fa Fb Na Nb name Nn Len Fq Ln La Lb.
  pose proof Fa as (A0 & A1 & _ & A2 & A3). pose proof Fb as (B0 & B1 & _ & B2 & B3).
  assert (Un : unix name = a ++ 47 :: b) by (unfold name, unix; rewrite map_app; cbn [map]; f_equal; [exact (unix_same a Na)|f_equal; exact (unix_same b Nb)]).
  assert (Pn : platname sgn g name = Ok (Some (a ++ 47 :: b))).
  { unfold platname. rewrite gpf_nice by (assumption || (rewrite Lg; lia)). cbn [bind].
    rewrite cstr_app; [rewrite Un; reflexivity|exact (nice_nz _ _ Nn)]. }
  assert (Hname : ~ In 47 name) by (unfold name; intro X; apply in_app_or in X; destruct X as [X|[X|X]]; [exact (A1 X)|discriminate|exact (B1 X)]).
  assert (Ha : forall r, (hd 0 (a ++ r) =? 47) = false).
  { intro r. destruct a as [|c a]; [congruence|]. apply N.eqb_neq. intro Y. apply A1. left. exact Y. }
  assert (N1 : name <> [46] /\ name <> [46; 46]).
  { split; intro X; assert (I : In 92 name) by (unfold name; apply in_or_app; right; left; reflexivity); rewrite X in I; cbn in I; intuition discriminate. }
  assert (Pl : place_in t wd name = Some (wd ++ [name])).
  { rewrite place_in_start by (unfold name; destruct a; discriminate). unfold start. unfold name at 1. rewrite Ha. unfold steps. rewrite split_one by exact Hname. cbn [map].
    assert (E : match name with [] => [46] | _ => name end = name) by (unfold name; destruct a; [congruence|reflexivity]).
    etransitivity; [|apply (walk_one t LINKS wd name); tauto]. f_equal. f_equal. exact E. }
  set (t1 := (wd ++ [name], KLink q) :: t).
  assert (L1 : forall r, lookup t1 r = if path_dec (wd ++ [name]) r then Some (KLink q) else lookup t r) by (intro r; apply lookup_add; apply app_ne).
  assert (Dif : wd ++ [name] <> wd ++ [a; b]) by (intro X; apply app_inv_head in X; discriminate).
  assert (Dif2 : wd ++ [name] <> wd ++ [a]).
  { intro X. apply app_inv_head in X. injection X as X. unfold name in X. apply (f_equal (@List.length N)) in X. rewrite app_length in X. cbn in X. lia. }
  assert (P1 : place_in t1 wd (a ++ 47 :: b) = Some (wd ++ [a; b])).
  { rewrite place_in_start by (destruct a; discriminate). unfold start. rewrite Ha. unfold steps. rewrite split_word, split_one by assumption. cbn [map].
    destruct a as [|c a']; [congruence|]. destruct b as [|d b']; [congruence|]. rewrite walk_step by (assumption || discriminate).
    rewrite L1. match goal with |- context [path_dec ?x ?y] => destruct (path_dec x y) as [X|_]; [destruct (Dif2 X)|] end. rewrite La, walk_one by assumption. rewrite <- app_assoc. reflexivity. }
  exists t1, (del t1 (wd ++ [a; b])). split.
  { unfold Symlink, symlink_in. rewrite Pl, Ln, removelast_last, Wd, components_render by exact Fq. reflexivity. }
  assert (Hp : wd ++ [a; b] <> []) by (destruct wd; discriminate).
  split; [rewrite L1; destruct (path_dec _ _); [reflexivity|congruence]|]. split.
  { unfold Delete. rewrite Pn. cbn [bind]. unfold unlink_in. rewrite P1, L1. destruct (path_dec (wd ++ [name]) (wd ++ [a; b])); [congruence|]. rewrite Lb. reflexivity. }
  split; rewrite lookup_del by exact Hp.
  - destruct (path_dec (wd ++ [a; b]) (wd ++ [a; b])); [reflexivity|congruence].
  - destruct (path_dec (wd ++ [a; b]) (wd ++ [name])); [congruence|]. rewrite L1. destruct (path_dec _ _); [reflexivity|congruence].
Qed.

Definition ltree : tree := [([chars "w"], KDir); ([chars "w"; chars "a"], KDir); ([chars "w"; chars "a"; chars "b"], KFile)].

Example C134_ex :
  (exists t1 t2, Symlink [chars "w"] ltree (chars "a/l") (chars "/w/a") = (t1, true) /\ Stat true [chars "w"] blanks t1 (chars "a/l") false = Ok (Some KDir) /\
     Readlink_at [chars "w"] t1 (repeat 7 8) (chars "a/l") = (chars "/w/a" ++ [7; 7; 7; 7], true) /\ Delete true [chars "w"] blanks t1 (chars "a\l") = Ok (t2, true) /\ t2 = ltree) /\
  (exists t1 t2, Symlink [chars "w"] ltree (chars "a\b") (chars "/w/a") = (t1, true) /\ Delete true [chars "w"] blanks t1 (chars "a\b") = Ok (t2, true) /\
     lookup t2 [chars "w"; chars "a"; chars "b"] = None) /\
  (exists t1, Symlink [chars "w"] ltree (chars "why?") (chars "/w/a") = (t1, true) /\ Exists_ true [chars "w"] blanks t1 (chars "why?") = Ok false /\
     Delete true [chars "w"] blanks t1 (chars "why?") = Ok (t1, false)).
Proof.
  split; [|split].
  - do 2 eexists. split; [vm_compute; reflexivity|]. repeat split; vm_compute; reflexivity.
  - do 2 eexists. split; [vm_compute; reflexivity|]. repeat split; vm_compute; reflexivity.
  - eexists. split; [vm_compute; reflexivity|]. repeat split; vm_compute; reflexivity.
Qed.

(** ** C135 *)

(** A Realpath that succeeds gives a terminated absolute path without links: from everywhere it
    leads to the file that the name given leads to, without a link at the end. *)
Theorem C135_same : forall t wd b name b', sound t -> Realpath wd t b name = Ok (b', true) ->
  exists s p k, cstr b' = Ok s /\ absolute s /\ List.length b' = List.length b /\ file_in t wd name = Some p /\ lookup t p = Some k /\ (forall g, k <> KLink g) /\
    forall from, place_in t from s = Some p /\ stat_in t from s = stat_in t wd name /\ lstat_in t from s = stat_in t wd name.
Proof.
  intros t wd b name b' So E. unfold Realpath in E. destruct (realpath_in t wd name) as [s|] eqn:Er; [|discriminate].
  destruct (realpath_text t wd name s So Er) as (p & k & Ef & Lk & Nk & Es & Cs & Fr). cbv zeta in E.
  destruct (Nat.leb_spec (List.length s + 1) (List.length b)) as [Le|Le]; [|discriminate].
  rewrite blit_in in E by (rewrite app_length; cbn [List.length]; lia). cbn [bind firstn app Nat.add] in E. injection E as <-.
  exists s, p, k. split.
  { rewrite <- app_assoc. apply cstr_app. eapply Forall_impl; [|exact Cs]. cbv beta. lia. }
  split; [rewrite Es; destruct p; eexists; reflexivity|]. split.
  { rewrite !app_length, skipn_length, ?app_length. cbn [List.length]. lia. }
  split; [exact Ef|]. split; [exact Lk|]. split; [exact Nk|]. intro from. destruct (Fr from) as [F1 F2].
  split; [exact F1|]. unfold stat_in, lstat_in. rewrite Ef, F2, F1. split; reflexivity.
Qed.

(** It succeeds exactly if there is such a file and the path with its terminator fits; otherwise
    the buffer is left alone.  It never writes outside the buffer. *)
Theorem C135_exactly : forall t wd b name, exists b' ok, Realpath wd t b name = Ok (b', ok) /\
  (ok = true <-> exists p, file_in t wd name = Some p /\ (List.length (text_of p) < List.length b)%nat) /\ (ok = false -> b' = b).
Proof.
  intros t wd b name. unfold Realpath, realpath_in. destruct (file_in t wd name) as [p|].
  - cbv zeta. destruct (Nat.leb_spec (List.length (text_of p) + 1) (List.length b)) as [Le|Le].
    + rewrite blit_in by (rewrite app_length; cbn [List.length]; lia). cbn [bind]. do 2 eexists. split; [reflexivity|]. split; [|discriminate].
      split; [|reflexivity]. intros _. exists p. split; [reflexivity|lia].
    + cbn [bind]. do 2 eexists. split; [reflexivity|]. split; [|reflexivity]. split; [discriminate|]. intros (p' & E & H). injection E as <-. lia.
  - do 2 eexists. split; [reflexivity|]. split; [|reflexivity]. split; [discriminate|]. intros (p' & E & _). discriminate.
Qed.

(** A backslash is not a slash for Realpath: for every name with a backslash in it and no slash,
    it fails unless the current directory has an entry of just that name, whatever Stat says. *)
Theorem C135_backslash_refuted : forall t (wd : path) b (name : bytes), In 92 name -> ~ In 47 name -> lookup t (wd ++ [name]) = None ->
  Realpath wd t b name = Ok (b, false).
Proof.
  intros t wd b name I Ns L. assert (Hn : name <> []) by (intros ->; destruct I).
  assert (N1 : name <> [46] /\ name <> [46; 46]) by (split; intros ->; cbn in I; intuition discriminate).
  unfold Realpath, realpath_in, file_in. rewrite place_in_start by exact Hn. unfold start, steps. rewrite split_one by exact Ns. cbn [map].
  assert (Hd : (hd 0 name =? 47) = false) by (destruct name; [congruence|apply N.eqb_neq; intro X; apply Ns; left; exact X]). rewrite Hd.
  match goal with |- context [walk t LINKS wd ?l] => replace l with [name] by (destruct name; [congruence|reflexivity]) end.
  rewrite walk_one by tauto. cbn [follow]. destruct LINKS; cbn [follow]; rewrite L; reflexivity.
Qed.

Example C135_ex : Realpath [chars "w"] wtree (repeat 7 6) (chars "l/../x") = Ok (chars "/a/x" ++ [0; 7], true) /\
  Realpath [chars "w"] wtree (repeat 7 5) (chars "l") = Ok (chars "/a/b" ++ [0], true) /\ Realpath [chars "w"] wtree (repeat 7 4) (chars "l") = Ok (repeat 7 4, false) /\
  Realpath [chars "w"] wtree (repeat 7 9) (chars "l\..") = Ok (repeat 7 9, false) /\ Stat true [chars "w"] blanks wtree (chars "l\..") false = Ok (Some KDir).
Proof. repeat split; vm_compute; reflexivity. Qed.

Print Assumptions C133_same. Print Assumptions C133_exists.
Print Assumptions C133_link_refuted.
Print Assumptions C134_usable.
Print Assumptions C134_backslash_refuted.
Print Assumptions C135_same.
Print Assumptions C135_backslash_refuted.
