(** File attributes on POSIX: utf8_file_dir.cpp. *)
From Verif Require Import Base S_Attr M_Attr.
Open Scope N_scope.

Lemma is_root u : euid u = 0 -> root u = true.
Proof. intro H. unfold root. rewrite H. reflexivity. Qed.
Lemma not_root u : euid u <> 0 -> root u = false.
Proof. intro H. unfold root. apply N.eqb_neq. exact H. Qed.

(** The bits that count for clearing bit 10. *)
Lemma clear10_rwx m : rwx (N.clearbit m 10) = rwx m.
Proof.
  unfold rwx. change 512 with (2 ^ 9). apply N.bits_inj. intro i. destruct (N.lt_ge_cases i 9) as [H|H].
  - rewrite !N.mod_pow2_bits_low by exact H. rewrite N.clearbit_eqb. replace (10 =? i) with false by (symmetry; apply N.eqb_neq; lia). apply andb_true_r.
  - rewrite !N.mod_pow2_bits_high by exact H. reflexivity.
Qed.
Lemma rwx_mod m : rwx (m mod 4096) = rwx m.
Proof.
  unfold rwx. change 512 with (2 ^ 9). change 4096 with (2 ^ 12). apply N.bits_inj. intro i. destruct (N.lt_ge_cases i 9) as [H|H].
  - rewrite !N.mod_pow2_bits_low by lia. reflexivity.
  - rewrite !N.mod_pow2_bits_high by lia. reflexivity.
Qed.
Lemma clear10_11 m : set_uid (N.clearbit m 10) = set_uid m.
Proof. unfold set_uid. rewrite N.clearbit_eqb. cbn [N.eqb Pos.eqb negb]. apply andb_true_r. Qed.
Lemma clear10_10 m : set_gid (N.clearbit m 10) = false.
Proof. unfold set_gid. rewrite N.clearbit_eqb. cbn [N.eqb Pos.eqb negb]. apply andb_false_r. Qed.

(** C103.  The attributes of a copy. *)

(** For root: owner, group and permissions are those of the source, the modification time that of
    the source up to the second. *)
Theorem C103_root : forall strip u src d, euid u = 0 -> sane src ->
  let c := Copy_attrs strip u src d in
  owner c = owner src /\ group c = group src /\ perms c = perms src /\ fst (mtime c) = fst (mtime src) /\ snd (mtime c) = 0 /\ fst (atime c) = fst (atime d).
Proof.
  intros strip u src d R (P & _) c. unfold c, Copy_attrs, sys_chown, sys_chmod, sys_utimes. rewrite (is_root u R). cbn [orb fst snd owner group perms mtime atime].
  rewrite N.mod_small by exact P. repeat split; reflexivity.
Qed.
Print Assumptions C103_root.

(** For everybody else: if the copy belongs to who copies, then it keeps that owner and gets the
    rights of the source and its modification time up to the second; the group is that of the
    source or that of the copy before. *)
Theorem C103_own : forall strip u src d, euid u = owner d ->
  let c := Copy_attrs strip u src d in
  (euid u <> 0 -> owner c = owner d) /\ (group c = group src \/ group c = group d) /\ rwx (perms c) = rwx (perms src) /\ fst (mtime c) = fst (mtime src) /\ snd (mtime c) = 0.
Proof.
  intros strip u src d O c.
  assert (E1 : exists g p, (g = group src \/ g = group d) /\ exists o, (o = owner d \/ root u = true) /\ fst (sys_chown strip u d (Some (owner src)) (Some (group src))) = Attrs o g p (atime d) (mtime d)).
  { unfold sys_chown. destruct (root u) eqn:Q; cbn [orb].
    - exists (group src), (strip (perms d)). split; [left; reflexivity|]. exists (owner src). split; [right; reflexivity|reflexivity].
    - destruct ((euid u =? owner d) && (owner src =? owner d) && ((group src =? group d) || member u (group src))) eqn:B.
      + exists (group src), (strip (perms d)). split; [left; reflexivity|]. exists (owner src). split; [|reflexivity]. left. apply andb_true_iff in B. destruct B as [B _]. apply andb_true_iff in B. apply N.eqb_eq. apply B.
      + exists (group d), (perms d). split; [right; reflexivity|]. exists (owner d). split; [left; reflexivity|]. destruct d; reflexivity. }
  destruct E1 as (g & p & Hg & o & Ho & E). unfold c, Copy_attrs. rewrite E. unfold sys_chmod. cbn [owner group].
  assert (B : root u || (euid u =? o) = true) by (destruct Ho as [-> | ->]; [rewrite O, N.eqb_refl; apply orb_true_r|reflexivity]). rewrite B. cbn [fst]. unfold sys_utimes. cbn [owner]. rewrite B. cbn [fst owner group perms mtime snd].
  split; [|split; [exact Hg|split; [|split; reflexivity]]].
  - intro Nr. destruct Ho as [-> |Q]; [reflexivity|]. rewrite (not_root u Nr) in Q. discriminate Q.
  - destruct (root u || member u g); [apply rwx_mod|rewrite clear10_rwx; apply rwx_mod].
Qed.
Print Assumptions C103_own.

(** The fraction of the second is always lost, and who is not root cannot give a file away: Copy
    returns true all the same. *)
Theorem C103_refuted :
  (forall strip u src d, euid u = 0 \/ euid u = owner d -> snd (mtime src) <> 0 -> mtime (Copy_attrs strip u src d) <> mtime src) /\
  (forall strip u src d, euid u <> 0 -> euid u = owner d -> owner src <> owner d -> owner (Copy_attrs strip u src d) <> owner src).
Proof.
  split.
  - intros strip u src d H N E. assert (Z : snd (mtime (Copy_attrs strip u src d)) = 0).
    { destruct H as [R|O]; [|apply (C103_own strip u src d O)]. unfold Copy_attrs, sys_chown, sys_chmod, sys_utimes. rewrite (is_root u R). reflexivity. }
    rewrite E in Z. exact (N Z).
  - intros strip u src d Nr O Ho E. destruct (C103_own strip u src d O) as (H & _). rewrite (H Nr) in E. congruence.
Qed.
Print Assumptions C103_refuted.

(** user 5 copies one of their own files, modified 200.000000008 s after 1970, over another one *)
Example C103_ex :
  Copy_attrs (fun p => p mod 1024) (User 5 (fun g => (g =? 50) || (g =? 51))) (Attrs 5 51 432 (100, 7) (200, 8)) (Attrs 5 50 420 (300, 1) (300, 2)) = Attrs 5 51 432 (300, 0) (200, 0).
Proof. reflexivity. Qed.

(** C104.  Programs that run as somebody else. *)

(** A copy made by root runs as whom the source ran as. *)
Theorem C104_root : forall strip u src d, euid u = 0 -> sane src ->
  let c := Copy_attrs strip u src d in
  set_uid (perms c) = set_uid (perms src) /\ set_gid (perms c) = set_gid (perms src) /\ owner c = owner src /\ group c = group src.
Proof. intros strip u src d R S c. destruct (C103_root strip u src d R S) as (A & B & C & _). fold c in A, B, C. rewrite C. repeat split; assumption. Qed.
Print Assumptions C104_root.

(** A copy has these bits only if the source has them, whatever the copy was before. *)
Theorem C104_only : forall strip u src d, euid u = 0 \/ euid u = owner d -> perms src < 4096 ->
  let c := Copy_attrs strip u src d in
  (set_uid (perms c) = true -> set_uid (perms src) = true) /\ (set_gid (perms c) = true -> set_gid (perms src) = true).
Proof.
  intros strip u src d H P c.
  assert (E : perms c = perms src \/ perms c = N.clearbit (perms src) 10).
  { unfold c, Copy_attrs. set (d1 := fst (sys_chown strip u d (Some (owner src)) (Some (group src)))).
    assert (B : root u || (euid u =? owner d1) = true).
    { destruct H as [R|O]; [rewrite (is_root u R); reflexivity|]. unfold d1, sys_chown. destruct (root u) eqn:Q; [reflexivity|]. cbn [orb].
      destruct ((euid u =? owner d) && (owner src =? owner d) && ((group src =? group d) || member u (group src))) eqn:B; cbn [fst owner]; [|rewrite O; apply N.eqb_refl].
      apply andb_true_iff in B. destruct B as [B _]. apply andb_true_iff in B. destruct B as [_ B]. apply N.eqb_eq in B. rewrite B, O. apply N.eqb_refl. }
    unfold sys_chmod. rewrite B. unfold sys_utimes. cbn [fst owner]. rewrite B. cbn [fst perms]. rewrite N.mod_small by exact P.
    destruct (root u || member u (group d1)); [left|right]; reflexivity. }
  destruct E as [->| ->]; [split; exact (fun x => x)|]. rewrite clear10_11, clear10_10. split; [exact (fun x => x)|discriminate].
Qed.
Print Assumptions C104_only.

(** If somebody else copies such a program then the copy runs as who copied it: the owner could not
    be set, but the bit was. *)
Theorem C104_refuted :
  (forall strip u src d, euid u <> 0 -> euid u = owner d -> owner src <> owner d -> perms src < 4096 -> set_uid (perms src) = true ->
    let c := Copy_attrs strip u src d in set_uid (perms c) = true /\ owner c = euid u /\ owner c <> owner src) /\
  (forall strip u src d, euid u <> 0 -> euid u = owner d -> owner src <> owner d -> group src <> group d -> member u (group d) = true -> perms src < 4096 -> set_gid (perms src) = true ->
    let c := Copy_attrs strip u src d in set_gid (perms c) = true /\ group c = group d).
Proof.
  assert (G : forall strip u src d, euid u <> 0 -> euid u = owner d -> owner src <> owner d -> perms src < 4096 ->
    let c := Copy_attrs strip u src d in owner c = owner d /\ group c = group d /\ perms c = (if member u (group d) then perms src else N.clearbit (perms src) 10)).
  { intros strip u src d Nr O Ho P c. unfold c, Copy_attrs, sys_chown. rewrite (not_root u Nr). cbn [orb]. replace (owner src =? owner d) with false by (symmetry; apply N.eqb_neq; exact Ho).
    rewrite andb_false_r. cbn [andb fst]. unfold sys_chmod. rewrite (not_root u Nr), O, N.eqb_refl. cbn [orb fst owner]. unfold sys_utimes. rewrite (not_root u Nr). cbn [orb fst owner]. rewrite O, N.eqb_refl.
    cbn [fst owner group perms]. rewrite N.mod_small by exact P. repeat split; reflexivity. }
  split.
  - intros strip u src d Nr O Ho P S c. destruct (G strip u src d Nr O Ho P) as (A & _ & C). fold c in A, C. rewrite A, C. split; [|split; congruence]. destruct (member u (group d)); [exact S|]. rewrite clear10_11. exact S.
  - intros strip u src d Nr O Ho _ M P S c. destruct (G strip u src d Nr O Ho P) as (_ & B & C). fold c in B, C. rewrite B, C, M. split; [exact S|reflexivity].
Qed.
Print Assumptions C104_refuted.

(** -rwsr-xr-x of user 5, group 50, copied by user 7 of group 70; and by root *)
Example C104_ex :
  let src := Attrs 5 50 (2048 + 493) (100, 7) (200, 8) in
  let d := Attrs 7 70 420 (300, 1) (300, 2) in
  Copy_attrs (fun p => p mod 1024) (User 7 (fun g => g =? 70)) src d = Attrs 7 70 (2048 + 493) (300, 0) (200, 0) /\
  Copy_attrs (fun p => p mod 1024) (User 0 (fun _ => false)) src d = Attrs 5 50 (2048 + 493) (300, 0) (200, 0).
Proof. split; reflexivity. Qed.

(** C105.  Owners and groups by name. *)

(** Chown gives the file to the user of that name, and a failing call changes nothing. *)
Theorem C105_owner : forall strip u db a name,
  (snd (Chown strip u db a name) = true -> exists x y, users db name = Some (x, y) /\ owner (fst (Chown strip u db a name)) = x /\ group (fst (Chown strip u db a name)) = group a) /\
  (snd (Chown strip u db a name) = false -> fst (Chown strip u db a name) = a) /\
  (euid u = 0 -> users db name <> None -> snd (Chown strip u db a name) = true).
Proof.
  intros strip u db a name. unfold Chown. destruct (users db name) as [[x y]|].
  - unfold sys_chown. destruct (root u || ((euid u =? owner a) && (x =? owner a) && ((group a =? group a) || member u (group a)))) eqn:B; cbn [fst snd owner group].
    + split; [intros _; exists x, y; repeat split|]. split; [discriminate|]. reflexivity.
    + split; [discriminate|]. split; [reflexivity|]. intros R _. rewrite (is_root u R) in B. discriminate B.
  - cbn [fst snd]. split; [discriminate|]. split; [reflexivity|]. intros _ H. congruence.
Qed.
Print Assumptions C105_owner.

(** Chgrp never touches the owner, and a failing call changes nothing.  It sets the group of that
    name if there is a user of the same name with that primary group. *)
Theorem C105_group : forall strip u db a name,
  owner (fst (Chgrp strip u db a name)) = owner a /\ (snd (Chgrp strip u db a name) = false -> fst (Chgrp strip u db a name) = a) /\
  (forall x g, users db name = Some (x, g) -> groups db name = Some g -> snd (Chgrp strip u db a name) = true -> groups db name = Some (group (fst (Chgrp strip u db a name)))).
Proof.
  intros strip u db a name. unfold Chgrp. destruct (users db name) as [[x y]|].
  - unfold sys_chown. destruct (root u || ((euid u =? owner a) && (owner a =? owner a) && ((y =? group a) || member u y))); cbn [fst snd owner group].
    + split; [reflexivity|]. split; [discriminate|]. intros x' g E Eg _. injection E as _ ->. exact Eg.
    + split; [reflexivity|]. split; [reflexivity|]. discriminate.
  - cbn [fst snd]. split; [reflexivity|]. split; [reflexivity|]. discriminate.
Qed.
Print Assumptions C105_group.

(** But the name is looked up among the users.  A group without a user of that name cannot be set,
    and where a user of that name has another primary group the file goes to that one. *)
Theorem C105_refuted :
  (forall strip u db a name, users db name = None -> Chgrp strip u db a name = (a, false)) /\
  (forall strip u db a name x g g', euid u = 0 -> groups db name = Some g -> users db name = Some (x, g') -> g <> g' ->
    snd (Chgrp strip u db a name) = true /\ group (fst (Chgrp strip u db a name)) = g' /\ groups db name <> Some (group (fst (Chgrp strip u db a name)))).
Proof.
  split.
  - intros strip u db a name E. unfold Chgrp. rewrite E. reflexivity.
  - intros strip u db a name x g g' R Eg E N. unfold Chgrp. rewrite E. unfold sys_chown. rewrite (is_root u R). cbn [orb fst snd group]. split; [reflexivity|]. split; [reflexivity|]. congruence.
Qed.
Print Assumptions C105_refuted.

(** "audio" is a group without user; the user "www" is in group 33 and the group "www" is 80 *)
Example C105_ex :
  let db := Accounts (fun n => if list_eq_dec N.eq_dec n [119; 119; 119] then Some (30, 33) else None)
                     (fun n => if list_eq_dec N.eq_dec n [119; 119; 119] then Some 80 else if list_eq_dec N.eq_dec n [97; 117; 100; 105; 111] then Some 29 else None) in
  let a := Attrs 5 50 420 (1, 2) (3, 4) in let r := User 0 (fun _ => false) in
  Chgrp (fun p => p) r db a [97; 117; 100; 105; 111] = (a, false) /\
  Chgrp (fun p => p) r db a [119; 119; 119] = (Attrs 5 33 420 (1, 2) (3, 4), true) /\
  Chown (fun p => p) r db a [119; 119; 119] = (Attrs 30 50 420 (1, 2) (3, 4), true).
Proof. repeat split; reflexivity. Qed.

(** C106.  SetFileTimes. *)

(** Times that are given are set exactly; the others keep their second; nothing else changes. *)
Theorem C106_times : forall u a x y, snd (SetFileTimes u a x y) = true ->
  let b := fst (SetFileTimes u a x y) in
  match x with Some t => at_us t (atime b) | None => fst (atime b) = fst (atime a) end /\
  match y with Some t => at_us t (mtime b) | None => fst (mtime b) = fst (mtime a) end /\
  owner b = owner a /\ group b = group a /\ perms b = perms a.
Proof.
  intros u a x y H b. unfold b, SetFileTimes, sys_utimes in *. destruct (root u || (euid u =? owner a)); [|discriminate H]. cbn [fst snd atime mtime owner group perms].
  assert (T : forall t, at_us t (t / 1000000, t mod 1000000 * 1000)).
  { intro t. unfold at_us. cbn [fst snd]. rewrite N.div_mul by discriminate. pose proof (N.div_mod t 1000000 ltac:(discriminate)) as D. pose proof (N.mod_lt t 1000000 ltac:(discriminate)) as L.
    split; [lia|]. split; [apply N.mod_mul; discriminate|lia]. }
  split; [destruct x; [apply T|reflexivity]|]. split; [destruct y; [apply T|reflexivity]|]. repeat split; reflexivity.
Qed.
Print Assumptions C106_times.

(** It fails exactly for those who may not do it, and changes nothing then. *)
Theorem C106_may : forall u a x y, (snd (SetFileTimes u a x y) = true <-> euid u = 0 \/ euid u = owner a) /\ (snd (SetFileTimes u a x y) = false -> fst (SetFileTimes u a x y) = a).
Proof.
  intros u a x y. unfold SetFileTimes, sys_utimes, root. destruct (N.eqb_spec (euid u) 0) as [A|A], (N.eqb_spec (euid u) (owner a)) as [B|B]; cbn [orb fst snd]; (split; [split; [auto; discriminate|intros [C|C]; congruence]|discriminate || reflexivity]).
Qed.
Print Assumptions C106_may.

(** A time that is not given loses its fraction of a second. *)
Theorem C106_refuted : forall u a x y, snd (SetFileTimes u a x y) = true -> let b := fst (SetFileTimes u a x y) in
  (x = None -> snd (atime a) <> 0 -> atime b <> atime a) /\ (y = None -> snd (mtime a) <> 0 -> mtime b <> mtime a).
Proof.
  intros u a x y H b. unfold b, SetFileTimes, sys_utimes in *. destruct (root u || (euid u =? owner a)); [|discriminate H]. cbn [fst snd atime mtime]. split; intros -> Z E; cbn [timeval fst snd] in E; rewrite <- E in Z; exact (Z eq_refl).
Qed.
Print Assumptions C106_refuted.

Example C106_ex : SetFileTimes (User 5 (fun _ => false)) (Attrs 5 50 420 (1, 2) (3, 4)) (Some 12345678) None = (Attrs 5 50 420 (12, 345678000) (3, 0), true).
Proof. reflexivity. Qed.
