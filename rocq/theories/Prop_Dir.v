(** C59, C75-C77: directories and links. *)
From Verif Require Import Base S_Utf8 S_Path S_Tree M_Path M_Dir P_MixedVar P_Path P_Dir.
From Coq Require Import String Ascii.
Open Scope N_scope.

Definition chars (s : string) : bytes := List.map (fun a => N.of_nat (nat_of_ascii a)) (list_ascii_of_string s).
Definition blanks (_ : bytes) : bytes := repeat 0 (S LIM).

(** The machine around the calls: local arrays of 8192 bytes with any contents (the last byte of
    one of them not a slash, see C57), and an absolute current directory without "." and "..". *)
Definition machine (cwd : bytes) (g2 g3 gr : bytes -> bytes) : Prop :=
  (forall d, List.length (g2 d) = S LIM /\ List.length (g3 d) = S LIM /\ List.length (gr d) = S LIM /\ octets (g2 d) /\ octets (gr d) /\ nth LIM (g2 d) 0 <> 47) /\
  ctext cwd /\ absolute cwd /\ Forall proper (split cwd).

(** ** C59 *)

(** A recursive Rmdir removes the directory and everything beneath it, and nothing else, whatever
    links lead out of it, if the names of its directories are such as file names may have here. *)
Theorem C59_removes : forall sgn cwd g2 g3 gr t name D fuel, machine cwd g2 g3 gr -> let p := place cwd (unix name) in
  nice sgn name -> proper (hd [] (split (unix name))) -> (List.length cwd + List.length name + 3 <= LIM)%nat ->
  sound t -> (forall q k, In (q, k) t -> (List.length q <= D)%nat) -> (D < fuel)%nat ->
  p <> [] -> lookup t p = Some KDir ->
  (forall q, under p q -> lookup t q = Some KDir -> nice sgn (render q) /\ ~ In 92 (render q) /\ (List.length cwd + List.length (render q) + 3 <= LIM)%nat) ->
  (forall q, under p q -> lookup t q <> None -> (List.length (render q) <= LIM)%nat) ->
  exists t', Rmdir sgn cwd g2 g3 gr fuel t name true = Ok (t', true) /\
    (forall q, under p q -> lookup t' q = None) /\ (forall q, ~ under p q -> lookup t' q = lookup t q).
Proof.
  intros sgn cwd g2 g3 gr t name D fuel (G & Cc & Ac & Pc) p Nn Pn Len So HD Hf Hp Lp Kn Ln.
  apply (rmdir_removes sgn cwd g2 g3 gr) with (D := D); try assumption; try (intro d; apply (G d)).
  intros q (c & r & ->) Hq. apply Ln; [exists (c :: r); reflexivity|exact Hq].
Qed.

(** For every tree and every name, with links anywhere, on the way and inside: an entry is gone
    only if it lies under the place the name leads to, and that is not a link. *)
Theorem C59_only_below : forall sgn cwd g2 g3 gr t name D fuel, machine cwd g2 g3 gr ->
  (forall q k, In (q, k) t -> q <> [] /\ Forall fname q /\ (List.length q <= D)%nat) -> ctext name -> (D < fuel)%nat ->
  exists t' ok, Rmdir sgn cwd g2 g3 gr fuel t name true = Ok (t', ok) /\
  forall q, lookup t' q <> lookup t q ->
    exists s p, absname sgn cwd g2 g3 gr name = Ok (Some s) /\ place_of t s = Some p /\ (forall g, lookup t p <> Some (KLink g)) /\ under p q /\ lookup t' q = None.
Proof.
  intros sgn cwd g2 g3 gr t name D fuel (G & Cc & Ac & Pc) K Cn Hf.
  apply (rmdir_safe sgn cwd g2 g3 gr) with (D := D); try assumption; try (intro d; apply (G d)).
  - intros q k Hq. destruct (K q k Hq) as (A & B & _). split; assumption.
  - intros q k Hq. apply (K q k Hq).
Qed.

(** A link is left alone, and the call fails. *)
Theorem C59_link_top : forall sgn cwd g2 g3 gr t name fuel g, machine cwd g2 g3 gr -> let p := place cwd (unix name) in
  nice sgn name -> proper (hd [] (split (unix name))) -> (List.length cwd + List.length name + 3 <= LIM)%nat -> (List.length (render p) <= LIM)%nat ->
  sound t -> lookup t p = Some (KLink g) ->
  Rmdir sgn cwd g2 g3 gr fuel t name true = Ok (t, false).
Proof.
  intros sgn cwd g2 g3 gr t name fuel g (G & Cc & Ac & Pc) p Nn Pn Len Cap So Lp. unfold Rmdir.
  rewrite absname_at by (assumption || (intro d; apply (G d))). fold p. cbn [bind].
  assert (Hp : p <> []) by (intros X; rewrite X in Lp; discriminate).
  assert (Fp : Forall fname p) by (apply place_fname; [exact Cc|apply unix_ctext; exact (nice_ctext _ _ Nn)]).
  assert (Pl : place_of t (render p) = Some p).
  { apply place_way; [apply render_ne; exact Hp|apply components_render; exact Fp|exact Fp|].
    intros a b E Hb. apply (sound_parent t a So b); [rewrite <- E, Lp; discriminate|exact Hb]. }
  unfold lstat. rewrite Pl, Lp. cbn [bind]. unfold rmdir. rewrite Pl. destruct p; [congruence|]. rewrite Lp. reflexivity.
Qed.

(** The property as stated is false: a directory inside with a star in its name is not emptied
    (it is not opened), so the call fails and leaves it; *)
Theorem C59_names_refuted : forall sgn, exists t f,
  sound t /\ lookup t [chars "d"] = Some KDir /\ lookup t f = Some KFile /\ under [chars "d"] f /\
  exists t', Rmdir sgn [47] blanks blanks blanks 10 t (chars "/d") true = Ok (t', false) /\ lookup t' f = Some KFile.
Proof.
  intro sgn. exists [([chars "d"], KDir); ([chars "d"; chars "a*"], KDir); ([chars "d"; chars "a*"; chars "f"], KFile)], [chars "d"; chars "a*"; chars "f"].
  split; [split|].
  - intros p k [E|[E|[E|[]]]]; injection E as <- _; (split; [discriminate|]); repeat (constructor; [split; [discriminate|]; split; [intro X; repeat (destruct X as [X|X]; [discriminate|]); exact X|];
      split; [repeat constructor|split; discriminate]|]); constructor.
  - intros p c L. destruct (lookup_in _ _ L) as [X|[k X]]; [destruct p; discriminate|]. destruct X as [X|[X|[X|[]]]]; injection X as X _;
      [change [chars "d"] with ([] ++ [chars "d"]) in X|change [chars "d"; chars "a*"] with ([chars "d"] ++ [chars "a*"]) in X|
       change [chars "d"; chars "a*"; chars "f"] with ([chars "d"; chars "a*"] ++ [chars "f"]) in X]; apply app_inj_tail in X; destruct X as [<- _]; reflexivity.
  - split; [reflexivity|]. split; [reflexivity|]. split; [exists [chars "a*"; chars "f"]; reflexivity|].
    destruct sgn; eexists; (split; [vm_compute; reflexivity|]); vm_compute; reflexivity.
Qed.

(** where char is signed, the same goes for a name that is not ASCII; *)
Theorem C59_utf8_refuted : exists t, lookup t [chars "d"] = Some KDir /\ lookup t [chars "d"; [195; 164]; chars "f"] = Some KFile /\
  exists t', Rmdir true [47] blanks blanks blanks 10 t (chars "/d") true = Ok (t', false) /\ lookup t' [chars "d"; [195; 164]; chars "f"] = Some KFile.
Proof.
  exists [([chars "d"], KDir); ([chars "d"; [195; 164]], KDir); ([chars "d"; [195; 164]; chars "f"], KFile)].
  split; [reflexivity|]. split; [reflexivity|]. eexists. split; [vm_compute; reflexivity|]. vm_compute. reflexivity.
Qed.

(** and a relative name that starts with ".." removes another directory than the one it names. *)
Theorem C59_wrong_place_refuted : forall sgn, exists t, lookup t [chars "b"] = Some KDir /\ lookup t [chars "x"; chars "y"; chars "b"; chars "f"] = Some KFile /\
  place (chars "/x/y") (chars "../../b") = [chars "b"] /\
  exists t', Rmdir sgn (chars "/x/y") blanks blanks blanks 10 t (chars "../../b") true = Ok (t', true) /\
    lookup t' [chars "b"] = Some KDir /\ lookup t' [chars "x"; chars "y"; chars "b"; chars "f"] = None.
Proof.
  intro sgn. exists [([chars "b"], KDir); ([chars "x"], KDir); ([chars "x"; chars "y"], KDir); ([chars "x"; chars "y"; chars "b"], KDir); ([chars "x"; chars "y"; chars "b"; chars "f"], KFile)].
  split; [reflexivity|]. split; [reflexivity|]. split; [reflexivity|]. destruct sgn; eexists; (split; [vm_compute; reflexivity|]); vm_compute; split; reflexivity.
Qed.

(** A file, a directory with a file, a link to /k and to the parent; /k and what it holds stay. *)
Example C59_ex :
  let t := [([chars "d"; chars "e"; chars "f"], KFile); ([chars "k"; chars "f"], KFile); ([chars "d"; chars "l"], KLink [chars "k"]); ([chars "d"; chars "e"; chars "up"], KLink [chars "d"]);
            ([chars "d"], KDir); ([chars "k"], KDir); ([chars "d"; chars "f"], KFile); ([chars "d"; chars "e"], KDir)] in
  Rmdir true [47] blanks blanks blanks 10 t (chars "d") true = Ok ([([chars "k"; chars "f"], KFile); ([chars "k"], KDir)], true) /\
  Rmdir true [47] blanks blanks blanks 10 t (chars "d/l") true = Ok (t, false) /\
  Rmdir true [47] blanks blanks blanks 10 t (chars "d") false = Ok (t, false).
Proof. vm_compute. repeat split; reflexivity. Qed.

(** ** C75 *)

(** A recursive Mkdir makes exactly the missing directories on the way, and says whether the last
    one was missing. *)
Theorem C75_creates : forall sgn cwd g2 g3 gr t name, machine cwd g2 g3 gr -> let p := place cwd (unix name) in
  nice sgn name -> proper (hd [] (split (unix name))) -> (List.length cwd + List.length name + 3 <= LIM)%nat -> (List.length (render p) <= LIM)%nat -> p <> [] ->
  (forall x, under x p -> lookup t x = None \/ lookup t x = Some KDir) ->
  exists t' ok, Mkdir sgn cwd g2 g3 gr t name true = Ok (t', ok) /\ (ok = true <-> lookup t p = None) /\
    (forall q, under q p -> lookup t' q = Some KDir) /\ (forall q, ~ under q p -> lookup t' q = lookup t q).
Proof.
  intros sgn cwd g2 g3 gr t name (G & Cc & Ac & Pc) p Nn Pn Len Cap Hp H.
  destruct (mkdir_creates sgn cwd g2 g3 gr) with (t := t) (name := name) as (t' & E & H1 & H2); try assumption; try (intro d; apply (G d)).
  do 2 eexists. split; [exact E|]. split; [|split; assumption]. fold p. destruct (lookup t p); split; congruence.
Qed.

(** For every tree and name, recursive or not: whatever exists stays, and only directories are new. *)
Theorem C75_keeps : forall sgn cwd g2 g3 gr t name recursive, machine cwd g2 g3 gr -> ctext name ->
  exists t' ok, Mkdir sgn cwd g2 g3 gr t name recursive = Ok (t', ok) /\
  forall q, lookup t' q = lookup t q \/ (lookup t q = None /\ lookup t' q = Some KDir).
Proof.
  intros sgn cwd g2 g3 gr t name recursive (G & Cc & Ac & Pc) Cn.
  apply (mkdir_keeps sgn cwd g2 g3 gr); try assumption; intro d; apply (G d).
Qed.

Example C75_ex :
  let t := [([chars "d"], KDir); ([chars "f"], KFile)] in
  Mkdir true (chars "/d") blanks blanks blanks t (chars "a/b") true = Ok (([chars "d"; chars "a"; chars "b"], KDir) :: ([chars "d"; chars "a"], KDir) :: t, true) /\
  Mkdir true (chars "/d") blanks blanks blanks t (chars "a/b") false = Ok (t, false) /\
  Mkdir true (chars "/d") blanks blanks blanks t (chars "/d") true = Ok (t, false) /\
  Mkdir true (chars "/d") blanks blanks blanks t (chars "/f/g/h") true = Ok (t, false).
Proof. vm_compute. repeat split; reflexivity. Qed.

(** ** C76 *)

(** Readlink says true exactly when the target and a terminator fit, and puts the target at the
    start of the buffer; the rest of the buffer stays as it was. *)
Theorem C76_contents : forall b link r ok, Readlink b link = (r, ok) ->
  List.length r = List.length b /\ (ok = true <-> (List.length link < List.length b)%nat) /\
  (ok = true -> r = link ++ skipn (List.length link) b).
Proof.
  intros b link r ok E. unfold Readlink in E. injection E as <- <-. rewrite app_length, skipn_length, firstn_length.
  split; [lia|]. split; [rewrite Nat.ltb_lt; lia|]. intro H. apply Nat.ltb_lt in H. rewrite firstn_all2, Nat.min_r by lia. reflexivity.
Qed.

(** So the result is a string only if the caller put the terminator there before. *)
Theorem C76_zeroed : forall b link, Forall (fun c => c <> 0) link -> nth_error b (List.length link) = Some 0 ->
  exists r, Readlink b link = (r, true) /\ cstr r = Ok link.
Proof.
  intros b link Hz Hb. unfold Readlink. assert (L : (List.length link < List.length b)%nat) by (apply nth_error_Some; congruence).
  rewrite firstn_all2 by lia. destruct (Nat.ltb_spec (List.length link) (List.length b)) as [_|X]; [|lia]. eexists. split; [reflexivity|].
  destruct (nth_error_split b _ Hb) as (l1 & l2 & -> & Hl). rewrite <- Hl, skipn_app, skipn_all, Nat.sub_diag. cbn [skipn app]. apply cstr_app. exact Hz.
Qed.

(** The property as stated is false for every target and every buffer size: with other bytes in
    the buffer before, true is returned and the text is not the target (or not terminated). *)
Theorem C76_refuted : forall link n, (List.length link < n)%nat -> exists b r, List.length b = n /\ Readlink b link = (r, true) /\ cstr r <> Ok link.
Proof.
  intros link n H. exists (repeat 88 n), (link ++ skipn (List.length link) (repeat 88 n)). split; [apply repeat_length|]. split.
  - unfold Readlink. rewrite repeat_length, firstn_all2 by lia. destruct (Nat.ltb_spec (List.length link) n) as [_|X]; [reflexivity|lia].
  - replace n with (List.length link + S (n - S (List.length link)))%nat by lia. rewrite repeat_app, skipn_app, repeat_length, Nat.sub_diag, skipn_all2 by (rewrite repeat_length; lia).
    cbn [app skipn repeat]. generalize (repeat 88 (n - S (List.length link))). intro l. clear.
    induction link as [|c link IH]; cbn [app cstr]; [destruct (cstr l); discriminate|]. destruct (c =? 0); [discriminate|].
    destruct (cstr (link ++ 88 :: l)) as [a| |]; cbn [bind]; try discriminate. intro X. injection X as X. apply IH. rewrite X. reflexivity.
Qed.

Example C76_ex : Readlink [7; 7; 7; 0; 7] (chars "abc") = (chars "abc" ++ [0; 7], true) /\ Readlink [7; 7; 7] (chars "abc") = (chars "abc", false) /\
  Readlink (chars "/old/target") (chars "/new") = (chars "/new/target", true).
Proof. vm_compute. repeat split; reflexivity. Qed.

(** ** C77 *)

(** A program that reads entries into a buffer until Read says false: the names seen. *)
Fixpoint listing (fuel : nat) (e : option (list bytes)) (b : bytes) : res (list bytes * option (list bytes)) :=
  match fuel with
  | O => Fuel
  | S g =>
      let* (e1, b1, ok) := Dir_Read e b in
      if ok then let* s := cstr b1 in let* (l, e2) := listing g e1 b1 in Ok (s :: l, e2) else Ok ([], e1)
  end.

(** If every name fits, the program sees every entry once, in order; then the directory is closed. *)
Theorem C77_visits : forall names b fuel, (List.length names < fuel)%nat ->
  Forall (fun n => Forall (fun c => c <> 0) n /\ (List.length n < List.length b)%nat) names ->
  listing fuel (Some names) b = Ok (names, None).
Proof.
  induction names as [|n names IH]; intros b fuel Hf F; (destruct fuel as [|g]; [cbn in Hf; lia|]); [reflexivity|]. cbn [listing Dir_Read].
  destruct (Forall_inv F) as [Z L]. destruct (Nat.ltb_spec (List.length b) (List.length n + 1)) as [X|_]; [lia|].
  rewrite blit_in by (rewrite app_length; cbn [List.length]; lia). cbn [bind firstn app Nat.add]. rewrite <- app_assoc. cbn [app]. rewrite cstr_app by exact Z. cbn [bind].
  rewrite IH; [reflexivity|cbn [List.length] in Hf; lia|]. apply Forall_inv_tail in F. eapply Forall_impl; [|exact F]. cbv beta. intros m [Zm Lm]. split; [exact Zm|].
  rewrite !app_length. cbn [List.length]. rewrite ?skipn_length, ?app_length; cbn [List.length]; lia.
Qed.

(** Reading never writes outside the buffer. *)
Theorem C77_fits : forall e b, exists e1 b1 ok, Dir_Read e b = Ok (e1, b1, ok) /\ List.length b1 = List.length b.
Proof.
  intros [[|n e]|] b; cbn [Dir_Read]; try (do 3 eexists; split; reflexivity).
  destruct (Nat.ltb_spec (List.length b) (List.length n + 1)) as [X|L]; [do 3 eexists; split; reflexivity|].
  rewrite blit_in by (rewrite app_length; cbn [List.length]; lia). cbn [bind firstn app Nat.add]. do 3 eexists. split; [reflexivity|].
  rewrite !app_length. cbn [List.length]. rewrite ?skipn_length, ?app_length; cbn [List.length]; lia.
Qed.

(** The property as stated is false: a name that does not fit ends the program as the end of the
    directory does, and the entries after it are never seen. *)
Theorem C77_refuted : forall before long after b fuel, (List.length before < fuel)%nat ->
  Forall (fun n => Forall (fun c => c <> 0) n /\ (List.length n < List.length b)%nat) before -> (List.length b <= List.length long)%nat ->
  listing fuel (Some (before ++ long :: after)) b = Ok (before, Some after).
Proof.
  induction before as [|n names IH]; intros long after b fuel Hf F Hl; (destruct fuel as [|g]; [cbn in Hf; lia|]); cbn [app listing Dir_Read].
  - destruct (Nat.ltb_spec (List.length b) (List.length long + 1)) as [_|X]; [reflexivity|lia].
  - destruct (Forall_inv F) as [Z L]. destruct (Nat.ltb_spec (List.length b) (List.length n + 1)) as [X|_]; [lia|].
    rewrite blit_in by (rewrite app_length; cbn [List.length]; lia). cbn [bind firstn app Nat.add]. rewrite <- app_assoc. cbn [app]. rewrite cstr_app by exact Z. cbn [bind].
    assert (E : List.length (n ++ 0 :: skipn (List.length (n ++ [0])) b) = List.length b) by (rewrite !app_length; cbn [List.length]; rewrite ?skipn_length, ?app_length; cbn [List.length]; lia).
    rewrite IH; [reflexivity|cbn [List.length] in Hf; lia| |rewrite E; exact Hl]. apply Forall_inv_tail in F. eapply Forall_impl; [|exact F]. cbv beta. intros m [Zm Lm]. split; [exact Zm|]. rewrite E. exact Lm.
Qed.

Example C77_ex : listing 5 (Some [chars "."; chars ".."; chars "file"]) (repeat 7 5) = Ok ([chars "."; chars ".."; chars "file"], None) /\
  listing 5 (Some [chars "."; chars "longer"; chars "f"]) (repeat 7 5) = Ok ([chars "."], Some [chars "f"]).
Proof. vm_compute. split; reflexivity. Qed.

Print Assumptions C59_removes.
Print Assumptions C59_only_below.
Print Assumptions C59_link_top.
Print Assumptions C59_names_refuted.
Print Assumptions C59_utf8_refuted.
Print Assumptions C59_wrong_place_refuted.
Print Assumptions C75_creates.
Print Assumptions C75_keeps.
Print Assumptions C76_contents.
Print Assumptions C76_zeroed.
Print Assumptions C76_refuted.
Print Assumptions C77_visits.
Print Assumptions C77_fits.
Print Assumptions C77_refuted.
