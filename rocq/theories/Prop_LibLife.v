(** C140: libraries stay loaded as long as they are used, and no longer. *)
From Verif Require Import Base S_LibLife M_LibLife P_Sem P_Progress P_LibLife.
Open Scope nat_scope.

(** All programs that obey the rule run without undefined behaviour: every
    call goes into a library that is loaded, every handle that is closed is open. *)
Theorem C140_safe os : legal users0 os -> exists s xs, lrun lstate0 os = Ok (s, xs).
Proof. intros L. destruct (from_start os L) as (s & xs & E & _). eauto. Qed.

(** A library that the rest of the process uses, or that was opened by a call
    by name, is never unloaded by the objects. *)
Theorem C140_kept os s xs k : legal users0 os -> lrun lstate0 os = Ok (s, xs) ->
  others (uend users0 os) k + once k os <= count s k.
Proof.
  intros L E. destruct (from_start os L) as (s' & xs' & E' & H). rewrite E in E'. injection E' as <- <-.
  rewrite (I_count _ _ _ H). lia.
Qed.

(** When all library objects have been destroyed, nothing they opened is open. *)
Theorem C140_gone os s xs k : legal users0 os -> lrun lstate0 os = Ok (s, xs) ->
  (forall m, nth_error (live (uend users0 os)) m <> Some true) ->
  count s k = others (uend users0 os) k + once k os.
Proof.
  intros L E D. destruct (from_start os L) as (s' & xs' & E' & H). rewrite E in E'. injection E' as <- <-.
  rewrite (I_count _ _ _ H), tally_zero; [lia|]. intros m [x|] Ex; [|reflexivity].
  exfalso. apply (D m). rewrite (I_live _ _ _ H), nth_error_map, Ex. reflexivity.
Qed.

(** The rule is needed: a function object that was used keeps a pointer into
    the library.  Whatever the program did before, if the object destroyed was
    the last user, the next call through the function object enters a library
    that is gone. *)
Theorem C140_outlive_refuted os s xs f m ok sym s1 k n ok' sym' :
  legal users0 os -> lrun lstate0 os = Ok (s, xs) ->
  nth_error (maker (uend users0 os)) f = Some m -> nth_error (live (uend users0 os)) m = Some true ->
  lexec s (CallFun f ok sym) = Ok (s1, Some (k, n)) -> count s1 k = 1 ->
  exists s2, lexec s1 (DestroyLib m) = Ok (s2, None) /\ lexec s2 (CallFun f ok' sym') = UB.
Proof.
  intros L E Mk Lv C1 One. destruct (from_start os L) as (s' & xs' & E' & H). rewrite E in E'. injection E' as <- <-.
  set (u := uend users0 os) in *.
  destruct (step_ok u _ s (CallFun f ok sym) H) as (s1' & x' & C1' & H1); [exists m; auto|].
  rewrite C1 in C1'. injection C1' as <- <-. cbn [uafter more] in H1.
  assert (Ad : exists y, nth_error (fns s1) f = Some y /\ faddr y = Some (k, n)).
  { cbn [lexec] in C1. unfold l_call, f_get in C1. destruct (nth_error (fns s) f) as [y|] eqn:Ey; [|discriminate]. cbn [bind] in C1.
    destruct (faddr y) as [a|] eqn:Ea.
    - unfold enter in C1. destruct (Nat.eqb _ 0); [discriminate|]. injection C1 as <- ->. eauto.
    - unfold f_load in C1. rewrite Ey in C1. destruct (ftext y) as [nm|]; [|discriminate]. cbv zeta in C1.
      destruct (l_load _ _ _) as [[s2 h]| |] eqn:El; try discriminate. cbn [bind] in C1. destruct h as [j|]; [|discriminate].
      cbn [bind] in C1. destruct sym; [|discriminate]. unfold enter in C1. destruct (Nat.eqb _ 0); [discriminate|]. injection C1 as <- <- <-.
      exists (Fn (fowner y) None (Some (j, nm))). split; [|reflexivity]. cbn [set_fn fns].
      assert (F2 : fns s2 = upd (fns s) f (Fn (fowner y) None (faddr y))).
      { unfold l_load in El. cbn [set_fn libs] in El. destruct (nth_error (libs s) (fowner y)) as [[[[fi|] [pt|]]|]|]; cbn [lptr lfile] in El; try discriminate; try (injection El as <- <-; reflexivity).
        destruct ok; injection El as <- ?; reflexivity. }
      rewrite F2. eapply put_same. apply put_same with y. exact Ey. }
  destruct Ad as (y & Ey & Ea).
  assert (Ow : fowner y = m).
  { pose proof Mk as Mk2. rewrite (I_maker _ _ _ H1), nth_error_map, Ey in Mk2. cbn in Mk2. congruence. }
  destruct (I_addr _ _ _ H1 f y k n Ey Ea) as [l El]; [now rewrite Ow|]. rewrite Ow in El.
  cbn [lexec]. unfold l_destroy. rewrite El. cbn [lptr]. unfold closed. rewrite One. cbn [Nat.eqb bind].
  eexists. split; [reflexivity|]. unfold l_call, f_get. cbn [set_lib fns]. rewrite Ey. cbn [bind]. rewrite Ea. unfold enter. cbn [fst set_lib count].
  rewrite drop1_at, Nat.eqb_refl, One. reflexivity.
Qed.

(** A library object can be copied, which only copies the handle: when the
    object and its copy are destroyed, the library is closed once too often.
    If it was the only user, the second closing is undefined; if not, the
    library is unloaded under another user. *)
Theorem C140_copy_refuted os s xs m l k :
  legal users0 os -> lrun lstate0 os = Ok (s, xs) -> nth_error (libs s) m = Some (Some (Lib l (Some k))) ->
  exists s1 s2, l_copy s m = Ok s1 /\ l_destroy s1 m = Ok s2 /\
    (count s k = 1 -> l_destroy s2 (length (libs s)) = UB) /\
    (1 < count s k -> exists s3, l_destroy s2 (length (libs s)) = Ok s3 /\ count s3 k + 2 = count s k).
Proof.
  intros L E Em. destruct (from_start os L) as (s' & xs' & E' & H). rewrite E in E'. injection E' as <- <-.
  pose proof (held _ _ _ _ _ _ H Em) as P. unfold l_copy. rewrite Em. unfold l_destroy at 1.
  assert (Lm : m < length (libs s)) by (apply nth_error_Some; congruence).
  do 2 eexists. split; [reflexivity|]. cbn [libs]. rewrite nth_error_app1, Em by auto. cbn [lptr]. unfold closed. cbn [count].
  destruct (Nat.eqb (count s k) 0) eqn:Z; [apply Nat.eqb_eq in Z; lia|]. cbn [bind]. split; [reflexivity|].
  assert (N2 : nth_error (upd (libs s ++ [Some (Lib l (Some k))]) m None) (length (libs s)) = Some (Some (Lib l (Some k)))).
  { rewrite put_other by lia. rewrite nth_error_app2, Nat.sub_diag by lia. reflexivity. }
  unfold l_destroy. cbn [set_lib libs]. rewrite N2. cbn [lptr]. unfold closed. cbn [set_lib count].
  rewrite drop1_at, Nat.eqb_refl. split.
  - intros ->. reflexivity.
  - intros G. destruct (Nat.eqb (count s k - 1) 0) eqn:Z2; [apply Nat.eqb_eq in Z2; lia|]. cbn [bind].
    eexists. split; [reflexivity|]. cbn [set_lib count]. rewrite !drop1_at, Nat.eqb_refl. lia.
Qed.

(** Two objects for the same library, one call by name, all destroyed in turn. *)
Definition C140_os : list lop :=
  [NewLib 7; NewFun 0 1; NewLib 7; NewFun 1 2; CallFun 0 true true; CallFun 1 true true; CallFun 1 true true;
   OtherOpen 7; CallOnce 8 3 true true; DestroyLib 0; CallFun 1 false false; DestroyLib 1].
Example C140_ex :
  match lrun lstate0 C140_os with
  | Ok (s, xs) => count s 7 = 1 /\ count s 8 = 1 /\
      xs = [None; None; None; None; Some (7, 1); Some (7, 2); Some (7, 2); None; Some (8, 3); None; Some (7, 2); None]
  | _ => False
  end.
Proof. vm_compute. auto. Qed.
Example C140_ex_legal : legal users0 C140_os /\ forall m, nth_error (live (uend users0 C140_os)) m <> Some true.
Proof.
  split.
  - cbn. repeat split; auto; eexists; split; reflexivity.
  - intros [|[|[|m]]]; cbn; discriminate.
Qed.
Example C140_ex_outlive : lrun lstate0 [NewLib 7; NewFun 0 1; CallFun 0 true true; DestroyLib 0; CallFun 0 true true] = UB.
Proof. reflexivity. Qed.

Print Assumptions C140_safe.
Print Assumptions C140_kept.
Print Assumptions C140_gone.
Print Assumptions C140_outlive_refuted.
Print Assumptions C140_copy_refuted.
