(** C47: names of shared objects. *)
From Verif Require Import Base S_Numeral S_Name M_Name P_Name.
Open Scope N_scope.

Lemma cap_S cap : (3 <= cap)%nat -> exists m, cap = S (S m) /\ (1 <= m)%nat.
Proof. intro H. exists (cap - 2)%nat. lia. Qed.

(** For every size of the array, prefix that begins with a slash, name and size: no access outside
    the array, and the result is a terminated string that begins with its only slash. *)
Theorem C47_safe : forall cap r a s name, (3 <= cap)%nat -> text r -> text name ->
  exists b t, shm_name cap (47 :: r) a s name = Ok b /\ length b = cap /\ cstr b = Ok (47 :: t) /\
    Forall (fun c => c <> 47 /\ c <> 92) t /\ (length t + 2 <= cap)%nat.
Proof.
  intros cap r a s name Hc Hr Hn. destruct (cap_S cap Hc) as (m & -> & Hm).
  destruct (shm_name_ok m Hm 47 r a s name ltac:(lia) Hr Hn) as (mid & pad & E & NZ & L & _).
  exists (47 :: map plain mid ++ 0 :: pad), (map plain mid). split; [exact E|]. split; [cbn [length]; rewrite app_length, map_length; cbn [length]; lia|].
  assert (NZ2 : Forall (fun c => c <> 0) (map plain mid)) by (rewrite Forall_map; eapply Forall_impl; [|exact NZ]; cbv beta; intros c; apply plain_pos).
  split; [|split; [|rewrite map_length; lia]].
  - change (47 :: map plain mid ++ 0 :: pad) with ((47 :: map plain mid) ++ 0 :: pad). apply cstr_text. constructor; [discriminate|exact NZ2].
  - rewrite Forall_map. apply Forall_forall. intros c _. unfold plain. destruct (N.eqb_spec c 92); [split; discriminate|]. destruct (N.eqb_spec c 47); [split; discriminate|]. cbn [orb]. split; assumption.
Qed.

(** As long as it fits, the name is the text, with slashes replaced. *)
Theorem C47_text : forall cap r a s name da ds, (3 <= cap)%nat -> text r -> text name -> decimal (a mod 2 ^ 32) da -> decimal (s mod 2 ^ 32) ds ->
  (length (full_text (47%N :: r) da ds name) < cap)%nat ->
  exists b, shm_name cap (47 :: r) a s name = Ok b /\ cstr b = Ok (47 :: map plain (tl (full_text (47 :: r) da ds name))).
Proof.
  intros cap r a s name da ds Hc Hr Hn Da Ds Hl. destruct (cap_S cap Hc) as (m & -> & Hm).
  destruct (shm_name_ok m Hm 47 r a s name ltac:(lia) Hr Hn) as (mid & pad & E & NZ & L & X).
  assert (UA : utoa 10 (a mod W32) [] = da /\ utoa 10 (s mod W32) [] = ds).
  { assert (G : forall n d, n < W32 -> decimal n d -> utoa 10 n [] = d).
    { intros n d B (l & D1 & ->). destruct (utoa_decimal n B) as (l2 & D2 & ->). rewrite (numeral_unique 10 n l l2 ltac:(lia) D1 D2). reflexivity. }
    split; apply G; try assumption; apply N.mod_lt; discriminate. }
  destruct UA as [UA US].
  assert (EQ : tl (full_text (47 :: r) da ds name) = r ++ nums a s ++ name).
  { unfold full_text, nums. rewrite UA, US. cbn [app tl]. rewrite <- !app_assoc. cbn [app]. rewrite <- !app_assoc. reflexivity. }
  assert (LE : length (full_text (47 :: r) da ds name) = S (length (r ++ nums a s ++ name))). { rewrite <- EQ. reflexivity. }
  rewrite (X ltac:(lia)) in *. rewrite EQ. exists (47 :: map plain (r ++ nums a s ++ name) ++ 0 :: pad). split; [exact E|].
  change (47 :: map plain (r ++ nums a s ++ name) ++ 0 :: pad) with ((47 :: map plain (r ++ nums a s ++ name)) ++ 0 :: pad). apply cstr_text.
  constructor; [discriminate|]. rewrite Forall_map. eapply Forall_impl; [|exact NZ]. cbv beta. intro c. apply plain_pos.
Qed.

(** If it does not fit, it is wrapped around: it has exactly [cap - 2] characters after the slash, each
    a letter of the alphabet where several bytes came together. *)
Theorem C47_long : forall cap r a s name da ds, (3 <= cap)%nat -> text r -> text name -> decimal (a mod 2 ^ 32) da -> decimal (s mod 2 ^ 32) ds ->
  (cap <= length (full_text (47%N :: r) da ds name))%nat ->
  shm_name cap (47 :: r) a s name = Ok (47 :: long_name (cap - 2) (tl (full_text (47 :: r) da ds name)) ++ [0]).
Proof.
  intros cap r a s name da ds Hc Hr Hn Da Ds Hl. destruct (cap_S cap Hc) as (m & -> & Hm).
  assert (G : forall n d, n < W32 -> decimal n d -> utoa 10 n [] = d).
  { intros n d B (l & D1 & ->). destruct (utoa_decimal n B) as (l2 & D2 & ->). rewrite (numeral_unique 10 n l l2 ltac:(lia) D1 D2). reflexivity. }
  assert (T : tl (full_text (47 :: r) da ds name) = r ++ nums a s ++ name).
  { unfold full_text, nums. cbn [app tl]. rewrite (G (a mod W32) da), (G (s mod W32) ds) by (assumption || (apply N.mod_lt; discriminate)). rewrite <- !app_assoc. cbn [app]. rewrite <- !app_assoc. reflexivity. }
  replace (S (S m) - 2)%nat with m by lia. rewrite T. apply (shm_name_long m Hm); [lia|exact Hr|exact Hn|]. rewrite <- T. unfold full_text in *. cbn [app tl length] in *. lia.
Qed.

(** So different short names, prefixes or sizes below 2^32 give different objects, except that
    slashes are not told from underscores. *)
Theorem C47_distinct : forall cap p1 p2 a s1 s2 n1 n2 da d1 d2 b, (3 <= cap)%nat -> prefix_ok p1 -> prefix_ok p2 -> text n1 -> text n2 ->
  s1 < 2 ^ 32 -> s2 < 2 ^ 32 -> decimal (a mod 2 ^ 32) da -> decimal s1 d1 -> decimal s2 d2 ->
  (length (full_text p1 da d1 n1) < cap)%nat -> (length (full_text p2 da d2 n2) < cap)%nat ->
  shm_name cap p1 a s1 n1 = Ok b -> shm_name cap p2 a s2 n2 = Ok b -> p1 = p2 /\ s1 = s2 /\ map plain n1 = map plain n2.
Proof.
  intros cap p1 p2 a s1 s2 n1 n2 da d1 d2 b Hc (r1 & -> & R1) (r2 & -> & R2) N1 N2 B1 B2 Da D1 D2 L1 L2 E1 E2.
  assert (T : forall r, Forall (fun c => 0 < c < 256 /\ c <> 45 /\ c <> 47 /\ c <> 92) r -> text r /\ Forall (fun c => c <> 45) r /\ map plain r = r).
  { intros r H. split; [eapply Forall_impl; [|exact H]; cbv beta; tauto|]. split; [eapply Forall_impl; [|exact H]; cbv beta; tauto|]. apply plain_id. eapply Forall_impl; [|exact H]; cbv beta; tauto. }
  destruct (T r1 R1) as (T1 & P1 & Q1). destruct (T r2 R2) as (T2 & P2 & Q2).
  assert (DD : forall n d, decimal n d -> Forall (fun c => c <> 45) d /\ map plain d = d).
  { intros n d H. apply decimal_digits in H. split; [eapply Forall_impl; [|exact H]; cbv beta; intros; lia|]. apply plain_id. eapply Forall_impl; [|exact H]. cbv beta. intros; lia. }
  destruct (DD _ _ Da) as [A1 A2]. destruct (DD _ _ D1) as [X1 Y1]. destruct (DD _ _ D2) as [X2 Y2].
  destruct (C47_text cap r1 a s1 n1 da d1 Hc T1 N1 Da ltac:(rewrite N.mod_small by exact B1; exact D1) L1) as (b1 & E1' & C1).
  destruct (C47_text cap r2 a s2 n2 da d2 Hc T2 N2 Da ltac:(rewrite N.mod_small by exact B2; exact D2) L2) as (b2 & E2' & C2).
  assert (b1 = b) as -> by congruence. assert (b2 = b) as -> by congruence. rewrite C1 in C2. injection C2 as E. unfold full_text in E. cbn [app tl] in E.
  rewrite !map_app in E. cbn [map] in E. change (plain 45) with 45 in E. rewrite !map_app in E. cbn [map] in E. change (plain 45) with 45 in E. rewrite !map_app in E. cbn [map] in E. change (plain 45) with 45 in E. rewrite Q1, Q2, A2, Y1, Y2 in E.
  destruct (split_dash _ _ _ _ P1 P2 E) as [-> Ea]. destruct (split_dash _ _ _ _ A1 A1 Ea) as [_ Eb]. destruct (split_dash _ _ _ _ X1 X2 Eb) as [-> Ec].
  split; [reflexivity|]. split; [exact (decimal_unique _ _ _ D1 D2)|exact Ec].
Qed.

(** "/Sync_Mutex", "/Sync_Semaphore", "/Sync_Event", "/Sync_ReadWrite", "/Sync_SharedMem" *)
Definition prefixes : list bytes := [
  [47;83;121;110;99;95;77;117;116;101;120]; [47;83;121;110;99;95;83;101;109;97;112;104;111;114;101]; [47;83;121;110;99;95;69;118;101;110;116];
  [47;83;121;110;99;95;82;101;97;100;87;114;105;116;101]; [47;83;121;110;99;95;83;104;97;114;101;100;77;101;109]].

(** The prefixes in use are good ones. *)
Theorem C47_prefixes : Forall prefix_ok prefixes.
Proof. repeat constructor; eexists; (split; [reflexivity|]); repeat constructor; lia. Qed.

(** "/Sync_Event" for "a/b", size 160, alignment 4: "/Sync_Event-4-160-a_b" *)
Example C47_ex : exists b, shm_name 255 [47;83;121;110;99;95;69;118;101;110;116] 4 160 [97;47;98] = Ok b /\ length b = 255%nat /\
  cstr b = Ok [47;83;121;110;99;95;69;118;101;110;116;45;52;45;49;54;48;45;97;95;98].
Proof. eexists. split; [vm_compute; reflexivity|]. split; vm_compute; reflexivity. Qed.

(** A long one on Apple: 30 bytes, of which the overlapping ones are scrambled. *)
Example C47_ex2 : exists b t, shm_name 31 [47;83;121;110;99;95;69;118;101;110;116] 4 160 (repeat 120 40) = Ok b /\ length b = 31%nat /\ cstr b = Ok t /\ length t = 30%nat /\ hd 0 t = 47.
Proof. eexists. eexists. split; [vm_compute; reflexivity|]. repeat split; vm_compute; reflexivity. Qed.

(** The same for seven places: all wrapped around several times. *)
Example C47_ex3 : shm_name 9 [47;83;121;110;99;95;69;118;101;110;116] 4 160 [63;63;63] = Ok (47 :: [103;100;108;104;65;122;45] ++ [0]).
Proof. vm_compute. reflexivity. Qed.

(** Longer names are not always told apart: two names of 250 bytes that differ in the last. *)
Theorem C47_collide : exists n1 n2 b, text n1 /\ text n2 /\ length n1 = 250%nat /\ length n2 = 250%nat /\ map plain n1 <> map plain n2 /\
  shm_name 255 [47;83;121;110;99;95;69;118;101;110;116] 4 160 n1 = Ok b /\ shm_name 255 [47;83;121;110;99;95;69;118;101;110;116] 4 160 n2 = Ok b.
Proof.
  assert (T : forall c, 0 < c < 256 -> text (repeat 120 249 ++ [c])).
  { intros c H. apply Forall_app. split; [|repeat constructor; apply H]. apply Forall_forall. intros x Hx. apply repeat_spec in Hx. subst x. split; reflexivity. }
  assert (L : forall c : N, length (repeat 120 249 ++ [c]) = 250%nat) by (intro c; rewrite app_length, repeat_length; reflexivity).
  exists (repeat 120 249 ++ [33]), (repeat 120 249 ++ [97]). eexists.
  split; [apply T; split; reflexivity|]. split; [apply T; split; reflexivity|]. split; [apply L|]. split; [apply L|].
  split; [|split; [vm_compute; reflexivity|vm_compute; reflexivity]].
  rewrite !map_app. intro E. apply app_inv_head in E. vm_compute in E. discriminate.
Qed.

(** Nor are sizes that differ by 2^32, so that one of two objects of the same name gets a mapping
    that is too short for it. *)
Theorem C47_sizes : forall cap p a s name, shm_name cap p a (s + 2 ^ 32) name = shm_name cap p a s name.
Proof.
  intros cap p a s name. unfold shm_name, nums. replace ((s + 2 ^ 32) mod W32) with (s mod W32); [reflexivity|]. change (2 ^ 32) with (1 * W32). rewrite N.mod_add by discriminate. reflexivity.
Qed.

Print Assumptions C47_safe. Print Assumptions C47_text. Print Assumptions C47_long. Print Assumptions C47_distinct. Print Assumptions C47_prefixes. Print Assumptions C47_collide. Print Assumptions C47_sizes.
