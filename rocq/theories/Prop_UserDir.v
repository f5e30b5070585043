(** C152: where the directory of the current user comes from. *)
From Verif Require Import Base S_AppInfo M_AppInfo P_AppInfo Prop_AppInfo M_UserDir.
Open Scope N_scope.

(** The home directory of a user: HOME if it is set, whatever the database says; else the directory
    of the user's entry. *)
Inductive lives (u : account) : bytes -> Prop :=
  | by_variable h : var_home u = Some h -> lives u h
  | by_entry h : var_home u = None -> passwd u = Some (Some h) -> lives u h.

Definition as_env (o : option bytes) : env := Env o [] (fun _ => None).

Lemma user_same u b app o : home_dir u = Ok o -> UserStorageDir u b app = GetCurrentUserAppStorageDir (as_env o) b app.
Proof. intro E. unfold UserStorageDir, GetCurrentUserAppStorageDir. rewrite E. destruct (clear b); reflexivity. Qed.
Lemma lives_dir u h : lives u h -> home_dir u = Ok (Some h).
Proof. intros [h' E|h' E E2]; unfold home_dir; rewrite E; [reflexivity|rewrite E2; reflexivity]. Qed.

(** The directory is made from that home directory, if it is not empty (C51 has that and the one size
    of the buffer that is left out here). *)
Theorem C152_delivers : forall u b app h, lives u h -> h <> [] -> length b <> length h ->
  delivered (length b) (UserStorageDir u b app) (storage h [46] app).
Proof. intros u b app h L Hn N. rewrite (user_same u b app _ (lives_dir u h L)). apply User_ok; [reflexivity|exact Hn|exact N]. Qed.

(** False for an entry without a directory. *)
Theorem C152_none : forall u b app, var_home u = None -> passwd u = Some None -> exists b', UserStorageDir u b app = Ok (b', None) /\ length b' = length b.
Proof.
  intros u b app E1 E2. unfold UserStorageDir, home_dir. rewrite E1, E2. destruct (clear_ok b) as (b0 & -> & L0). cbn [bind]. eauto.
Qed.

(** REFUTED: a user without entry, as in many containers, and without HOME: whatever the buffer and
    the application, a null pointer is followed. *)
Theorem C152_refuted : forall u b app, var_home u = None -> passwd u = None -> UserStorageDir u b app = UB.
Proof. intros u b app E1 E2. unfold UserStorageDir, home_dir. rewrite E1, E2. destruct (clear_ok b) as (b0 & -> & _). reflexivity. Qed.

(** Exactly when the call is safe. *)
Theorem C152_inside_iff : forall u b app,
  inside b (UserStorageDir u b app) <->
  (var_home u <> None \/ passwd u <> None) /\ (forall h, lives u h -> h <> [] /\ length b <> length h).
Proof.
  intros u b app. split.
  - intro I. assert (X : var_home u <> None \/ passwd u <> None).
    { destruct (var_home u) eqn:E1; [left; discriminate|]. destruct (passwd u) eqn:E2; [right; discriminate|]. destruct I as (b' & a & E & _). rewrite C152_refuted in E by assumption. discriminate. }
    split; [exact X|]. intros h L. rewrite (user_same u b app _ (lives_dir u h L)) in I. exact (proj1 (C51_user_inside_iff _ _ _) I).
  - intros [X H]. destruct (var_home u) as [h|] eqn:E1.
    + assert (L : lives u h) by (left; exact E1). rewrite (user_same u b app _ (lives_dir u h L)). apply C51_user_inside_iff. exact (H h L).
    + destruct (passwd u) as [[h|]|] eqn:E2; [| |destruct X; congruence].
      * assert (L : lives u h) by (right; assumption). rewrite (user_same u b app _ (lives_dir u h L)). apply C51_user_inside_iff. exact (H h L).
      * destruct (C152_none u b app E1 E2) as (b' & E & L). exists b', None. auto.
Qed.

Example C152_ex :
  UserStorageDir (Account (Some [47;104]) None) (repeat 9 9) (Some [97]) = Ok ([47;104;47;46;97;47;0;9;9], Some 7%nat) /\
  UserStorageDir (Account None (Some (Some [47;104]))) (repeat 9 9) (Some [97]) = Ok ([47;104;47;46;97;47;0;9;9], Some 7%nat) /\
  UserStorageDir (Account (Some [47;104]) (Some (Some [47;117]))) (repeat 9 9) None = Ok ([47;104;47;0;9;9;9;9;9], Some 4%nat) /\
  UserStorageDir (Account None None) (repeat 9 9) (Some [97]) = UB.
Proof. vm_compute. repeat split; reflexivity. Qed.

Print Assumptions C152_delivers.
Print Assumptions C152_none.
Print Assumptions C152_refuted.
Print Assumptions C152_inside_iff.
