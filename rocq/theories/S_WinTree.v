(** A volume as Windows programs see it: the calls FindFirstFileW, DeleteFileW, RemoveDirectoryW,
    CreateDirectoryW and GetFileAttributesW.  This is the environment, not the modelled code.
    Names are compared as they are stored, and links point to absolute paths on the same volume. *)
From Verif Require Import Base S_Tree S_WinPath.
Open Scope N_scope.

(** The components of a path name as it is typed. *)
Definition wcomponents (text : bytes) : path := filter (fun c => match c with [] => false | _ => true end) (wsplit text).

Fixpoint after_prefix (v s : bytes) : option bytes :=
  match v, s with
  | [], _ => Some s
  | a :: v1, b :: s1 => if a =? b then after_prefix v1 s1 else None
  | _ :: _, [] => None
  end.

(** The names FindFirstFileW finds, with two attributes: is it a directory, is it a reparse point. *)
Record found := { cFileName : bytes; is_dir : bool; is_reparse : bool }.

Section Volume.
(** The name of the volume; which entries are read-only; which links are directory links. *)
Variable v : bytes.
Variables ro dl : path -> bool.

(** Where a path name leads: links on the way are followed, one at the end is not. *)
Definition wplace_of (t : tree) (text : bytes) : option path :=
  match after_prefix v text with Some r => walk t LINKS [] (wcomponents r) | None => None end.

Definition dir_attr (t : tree) (p : path) : bool :=
  match lookup t p with Some KDir => true | Some (KLink _) => dl p | _ => false end.
Definition reparse_attr (t : tree) (p : path) : bool :=
  match lookup t p with Some (KLink _) => true | _ => false end.

(** Every entry of a directory, for a pattern that ends in "\*"; a link in front of it is followed. *)
Definition find_all (t : tree) (pattern : bytes) : option (list found) :=
  let n := (length pattern - 2)%nat in
  if list_eq_dec N.eq_dec (skipn n pattern) [92; 42] then
    match wplace_of t (firstn n pattern) with
    | Some p =>
        match dir_at t LINKS p with
        | Some q => Some ({| cFileName := [46]; is_dir := true; is_reparse := false |} ::
                          {| cFileName := [46; 46]; is_dir := true; is_reparse := false |} ::
                          map (fun c => {| cFileName := c; is_dir := dir_attr t (q ++ [c]); is_reparse := reparse_attr t (q ++ [c]) |}) (children t q))
        | None => None
        end
    | None => None
    end
  else None.

(** Files and file links are deleted, unless they are read-only. *)
Definition DeleteFileW (t : tree) (text : bytes) : tree * bool :=
  match wplace_of t text with
  | Some p =>
      match lookup t p with
      | Some KFile => if ro p then (t, false) else (del t p, true)
      | Some (KLink _) => if dl p || ro p then (t, false) else (del t p, true)
      | _ => (t, false)
      end
  | None => (t, false)
  end.

(** Empty directories and directory links are removed, unless they are read-only. *)
Definition RemoveDirectoryW (t : tree) (text : bytes) : tree * bool :=
  match wplace_of t text with
  | Some ((_ :: _) as p) =>
      match lookup t p with
      | Some KDir => if ro p || negb (length (children t p) =? 0)%nat then (t, false) else (del t p, true)
      | Some (KLink _) => if negb (dl p) || ro p then (t, false) else (del t p, true)
      | _ => (t, false)
      end
  | _ => (t, false)
  end.

(** [Some true]: a reparse point; [None]: there is nothing. *)
Definition GetFileAttributesW (t : tree) (text : bytes) : option bool :=
  match wplace_of t text with
  | Some p => match lookup t p with Some _ => Some (reparse_attr t p) | None => None end
  | None => None
  end.

Definition CreateDirectoryW (t : tree) (text : bytes) : tree * bool :=
  match wplace_of t text with
  | Some p =>
      match lookup t p, lookup t (removelast p) with
      | None, Some KDir => ((p, KDir) :: t, true)
      | _, _ => (t, false)
      end
  | None => (t, false)
  end.

(** The full name of an entry. *)
Definition full (p : path) : bytes := v ++ wrender p.

(** An entry that can be removed by its full name, if need be after what is inside it. *)
Definition removable (p : path) : Prop := ro p = false /\ (length (full p) <= N.to_nat 8190)%nat.
(** It exists, and everything under it can be removed. *)
Definition clearable (t : tree) (p : path) : Prop :=
  lookup t p <> None /\ forall q, under p q -> lookup t q <> None -> removable q.
End Volume.

(** A name as it is stored. *)
Definition wname (c : bytes) : Prop := c <> [] /\ ~ In 92 c /\ ~ In 0 c /\ c <> [46] /\ c <> [46; 46].
(** Every path is made of names, and its parent is a directory. *)
Definition wsound (t : tree) : Prop :=
  (forall p k, In (p, k) t -> p <> [] /\ Forall wname p) /\
  (forall p c, lookup t (p ++ [c]) <> None -> lookup t p = Some KDir).
