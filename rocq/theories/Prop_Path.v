(** File names and paths: C57, C58, C72, C73. *)
From Verif Require Import Base S_Utf8 S_Path M_Path P_MixedVar P_Path.
From Coq Require Import Ascii String.
Open Scope N_scope.
Open Scope list_scope.

Definition chars (s : string) : bytes := map N_of_ascii (list_ascii_of_string s).

(** A local array with nothing in it. *)
Definition blank : bytes := repeat 0 (S LIM).

(** ** C57 *)

(** From a directory without dot components, every name whose first component is not "." or ".."
    is resolved component by component: the result is the path found, with a slash at the end if
    asked for, and it fits.  This covers the absolute names too, and any stale contents of the
    local arrays except for the last byte of one of them. *)
Theorem C57_resolves : forall sgn g2 g3 cwd result base name (trailing : bool),
  List.length g2 = S LIM -> List.length g3 = S LIM -> nth LIM g2 0 <> 47 ->
  nice sgn name -> nice sgn base -> absolute (unix base) -> Forall proper (split (unix base)) ->
  proper (hd [] (split (unix name))) -> (List.length base + List.length name + 3 <= LIM)%nat ->
  let want := render (place (unix base) (unix name)) ++ (if trailing then [47] else []) in
  (List.length want < List.length result)%nat ->
  exists r, GetAbsoluteFilename sgn g2 g3 cwd result (Some base) name trailing = Ok (r, true) /\ cstr r = Ok want /\
    List.length r = List.length result.
Proof.
  intros sgn g2 g3 cwd result base name trailing L2 L3 Z Nn Nb Ab Pb Pn Len want Cap.
  eapply (absolute_core sgn g2 g3 _ cwd result (Some base) name (unix name) trailing (unix base)).
  - apply gpf_nice; [exact Nn|lia].
  - exact (nice_nz _ _ Nn).
  - destruct Nn as [Hn _]. destruct name; [congruence|discriminate].
  - exact Pn.
  - rewrite unix_len. apply gpf_nice; [exact Nb|lia].
  - exact L2.
  - exact Z.
  - exact (nice_nz _ _ Nb).
  - destruct Ab as [r ->]. reflexivity.
  - exact Pb.
  - rewrite !unix_len. exact Len.
  - exact Cap.
Qed.

(** The same from the current directory. *)
Theorem C57_resolves_cwd : forall sgn g2 g3 cwd result name (trailing : bool),
  List.length g2 = S LIM -> List.length g3 = S LIM -> nth LIM g2 0 <> 47 ->
  nice sgn name -> Forall (fun c => c <> 0) cwd -> absolute cwd -> Forall proper (split cwd) ->
  proper (hd [] (split (unix name))) -> (List.length cwd + List.length name + 3 <= LIM)%nat ->
  let want := render (place cwd (unix name)) ++ (if trailing then [47] else []) in
  (List.length want < List.length result)%nat ->
  exists r, GetAbsoluteFilename sgn g2 g3 cwd result None name trailing = Ok (r, true) /\ cstr r = Ok want /\
    List.length r = List.length result.
Proof.
  intros sgn g2 g3 cwd result name trailing L2 L3 Z Nn Nb Ab Pb Pn Len want Cap.
  eapply (absolute_core sgn g2 g3 _ cwd result None name (unix name) trailing cwd).
  - apply gpf_nice; [exact Nn|lia].
  - exact (nice_nz _ _ Nn).
  - destruct Nn as [Hn _]. destruct name; [congruence|discriminate].
  - exact Pn.
  - unfold Getcwd. destruct (Nat.leb_spec (List.length cwd + 1) (List.length g2)) as [_|X]; [|lia].
    rewrite blit_in by (rewrite app_length; cbn [List.length]; lia). cbn [bind firstn app Nat.add]. do 2 f_equal.
    rewrite <- app_assoc, app_length. cbn [app List.length]. rewrite Nat.add_1_r. reflexivity.
  - exact L2.
  - exact Z.
  - exact Nb.
  - destruct Ab as [r ->]. reflexivity.
  - exact Pb.
  - rewrite !unix_len. exact Len.
  - exact Cap.
Qed.

(** A name that begins with ".." may lead to a wrong place, and be accepted. *)
Theorem C57_refuted : forall sgn, exists base name r s,
  GetAbsoluteFilename sgn blank blank [47] (repeat 0 100) (Some base) name false = Ok (r, true) /\ cstr r = Ok s /\
  Forall plain base /\ Forall plain name /\ absolute base /\ Forall proper (split base) /\
  s <> render (place base name).
Proof.
  intro sgn. exists (chars "/x/y"), (chars "../../b"). do 2 eexists.
  split; [destruct sgn; vm_compute; reflexivity|]. split; [vm_compute; reflexivity|].
  split; [repeat constructor; discriminate|]. split; [repeat constructor; discriminate|]. split; [eexists; reflexivity|].
  split; [repeat constructor; discriminate|]. vm_compute. discriminate.
Qed.

(** The result may contain ".." itself, *)
Theorem C57_dotdot_refuted : forall sgn, exists name r s,
  GetAbsoluteFilename sgn blank blank [47] (repeat 0 100) (Some (chars "/x/y")) name false = Ok (r, true) /\ cstr r = Ok s /\
  ~ Forall proper (split s).
Proof.
  intro sgn. exists (chars ".."). do 2 eexists. split; [destruct sgn; vm_compute; reflexivity|]. split; [vm_compute; reflexivity|].
  intro F. do 3 apply Forall_inv_tail in F. apply Forall_inv in F. destruct F as [_ F]. apply F. reflexivity.
Qed.

(** or be the empty string, when the path is the root; *)
Theorem C57_root_refuted : forall sgn, exists name r,
  GetAbsoluteFilename sgn blank blank [47] (repeat 0 100) (Some (chars "/x/y")) name false = Ok (r, true) /\ cstr r = Ok [] /\
  place (chars "/x/y") name = [].
Proof.
  intro sgn. exists (chars "b/../../.."). eexists. split; [destruct sgn; vm_compute; reflexivity|]. split; [vm_compute; reflexivity|]. vm_compute. reflexivity.
Qed.

(** or a directory above the place asked for, when the buffer is too small. *)
Theorem C57_short_refuted : forall sgn, exists name r s,
  GetAbsoluteFilename sgn blank blank [47] (repeat 0 3) (Some (chars "/a")) name false = Ok (r, true) /\ cstr r = Ok s /\
  s <> render (place (chars "/a") name) /\ Forall plain name /\ proper (hd [] (split name)).
Proof.
  intro sgn. exists (chars "b"). do 2 eexists. split; [destruct sgn; vm_compute; reflexivity|]. split; [vm_compute; reflexivity|].
  split; [vm_compute; discriminate|]. split; [repeat constructor; discriminate|split; discriminate].
Qed.

Example C57_ex : exists r, GetAbsoluteFilename true blank blank [47] (repeat 7 16) (Some (chars "/usr/local/")) (chars "lib//./a\../../b.c") true = Ok (r, true)
  /\ cstr r = Ok (chars "/usr/local/b.c/") /\ place (chars "/usr/local/") (unix (chars "lib//./a\../../b.c")) = [chars "usr"; chars "local"; chars "b.c"].
Proof. eexists. split; [vm_compute; reflexivity|]. vm_compute. split; reflexivity. Qed.

(** ** C58 *)

(** Where char is unsigned, every well-formed name of permitted bytes is accepted whenever it
    fits, and only backslashes change; where char is signed, every such name in ASCII. *)
Theorem C58_accepted : forall sgn b name, nice sgn name -> (List.length name < List.length b)%nat ->
  exists r, GetPlatformFilename sgn b name = Ok (r, true) /\ cstr r = Ok (unix name) /\ List.length r = List.length b.
Proof.
  intros sgn b name N L. eexists. split; [apply gpf_nice; assumption|]. split; [apply cstr_app; exact (nice_nz _ _ N)|].
  rewrite app_length, unix_len. cbn [List.length]. rewrite skipn_length. lia.
Qed.

(** Control and wildcard characters are refused. *)
Theorem C58_refused : forall sgn b name, byteList name -> Exists (fun c => ~ permitted c) name ->
  exists r, GetPlatformFilename sgn b name = Ok (r, false).
Proof.
  intros sgn b name B X. apply gpf_bad; [exact B|]. apply Exists_exists in X. destruct X as (c & Hc & Np). apply Exists_exists. exists c. split; [exact Hc|].
  unfold byteList in B. rewrite Forall_forall in B. specialize (B c Hc). unfold isByte in B. unfold permitted in Np. unfold bad_char. destruct sgn; lia.
Qed.

(** So are names that do not fit, and the empty name. *)
Theorem C58_too_long : forall sgn b name, byteList name -> (List.length b <= List.length name)%nat \/ name = [] ->
  exists r, GetPlatformFilename sgn b name = Ok (r, false).
Proof. intros. apply gpf_short; assumption. Qed.

(** Where char is signed, every name with a byte above 127 is refused, well-formed or not. *)
Theorem C58_signed_refuted : forall b name, byteList name -> Exists (fun c => 128 <= c) name ->
  exists r, GetPlatformFilename true b name = Ok (r, false).
Proof.
  intros b name B X. apply gpf_bad; [exact B|]. eapply Exists_exists. apply Exists_exists in X. destruct X as (c & Hc & H). exists c. split; [exact Hc|].
  unfold bad_char. lia.
Qed.

Example C58_ex : (* "b\é" *)
  exists r r', GetPlatformFilename false (repeat 7 6) [98; 92; 0xC3; 0xA9] = Ok (r, true) /\ cstr r = Ok [98; 47; 0xC3; 0xA9] /\
    GetPlatformFilename true (repeat 7 6) [98; 92; 0xC3; 0xA9] = Ok (r', false).
Proof. do 2 eexists. split; [vm_compute; reflexivity|]. split; vm_compute; reflexivity. Qed.

(** ** C72 *)

(** The positions are those of the file name, its first dot and its last dot (or the end), for
    every string, and every string has exactly such parts. *)
Theorem C72_parts : forall f, exists p w s1 e1 s2 e2,
  parts f p w /\ first_ext w s1 e1 /\ last_ext w s2 e2 /\
  GetPlatformFilenameInfo f = (List.length p, (List.length p + List.length s1)%nat, (List.length p + List.length s2)%nat).
Proof.
  intro f. destruct (parts_exist f) as (p & w & s1 & e1 & s2 & e2 & P & F & L). exists p, w, s1, e1, s2, e2.
  split; [exact P|]. split; [exact F|]. split; [exact L|]. eapply info_ok; eassumption.
Qed.

Theorem C72_unique : forall f p w s1 e1 s2 e2, parts f p w -> first_ext w s1 e1 -> last_ext w s2 e2 ->
  GetPlatformFilenameInfo f = (List.length p, (List.length p + List.length s1)%nat, (List.length p + List.length s2)%nat).
Proof. exact info_ok. Qed.

Example C72_ex : GetPlatformFilenameInfo (chars "/usr/x.d/a.tar.gz") = (9%nat, 10%nat, 14%nat) /\ GetPlatformFilenameInfo (chars "/usr/x.d/") = (9%nat, 9%nat, 9%nat).
Proof. vm_compute. split; reflexivity. Qed.

(** ** C73 *)

(** Whatever the names, the current directory and the size of the result, every access is inside
    an array and a successful result is terminated, provided the last byte of one local array
    happens not to be a slash. *)
Theorem C73_inside : forall sgn g2 g3 cwd result base name (trailing : bool),
  List.length g2 = S LIM -> List.length g3 = S LIM -> nth LIM g2 0 <> 47 ->
  ctext name -> ctext cwd -> (match base with Some d => ctext d | None => True end) ->
  exists r ok, GetAbsoluteFilename sgn g2 g3 cwd result base name trailing = Ok (r, ok) /\ List.length r = List.length result /\
    (ok = true -> exists s, cstr r = Ok s).
Proof. exact absolute_total. Qed.

(** Otherwise it may read past the end: what follows the text in the array is never written. *)
Theorem C73_stale_refuted : forall sgn, exists g2 g3 base name, List.length g2 = S LIM /\ List.length g3 = S LIM /\
  Forall plain base /\ Forall plain name /\ GetAbsoluteFilename sgn g2 g3 [47] (repeat 0 100) (Some base) name false = UB.
Proof.
  intro sgn. exists (repeat 47 (S LIM)), blank, (chars "/a"), (chars "b/"). split; [apply repeat_length|]. split; [apply repeat_length|].
  split; [repeat constructor; discriminate|]. split; [repeat constructor; discriminate|]. destruct sgn; vm_compute; reflexivity.
Qed.

Example C73_ex : exists r, GetAbsoluteFilename true (repeat 65 (S LIM)) blank [47] (repeat 0 2) (Some (chars "/abc")) (chars "c/../..") true = Ok (r, true) /\ cstr r = Ok [47].
Proof. eexists. split; vm_compute; reflexivity. Qed.

Print Assumptions C57_resolves.
Print Assumptions C57_resolves_cwd.
Print Assumptions C57_refuted.
Print Assumptions C57_dotdot_refuted.
Print Assumptions C57_root_refuted.
Print Assumptions C57_short_refuted.
Print Assumptions C58_accepted.
Print Assumptions C58_refused.
Print Assumptions C58_too_long.
Print Assumptions C58_signed_refuted.
Print Assumptions C72_parts.
Print Assumptions C72_unique.
Print Assumptions C73_inside.
Print Assumptions C73_stale_refuted.
