(** What POSIX says about the place a path name denotes, seen from the current directory, and
    about stat, symlink, readlink and realpath.  This is the environment, not the modelled code;
    it extends S_Tree, where links point to absolute paths. *)
From Verif Require Import Base S_Path S_Tree.
Open Scope N_scope.

(** The steps of a path name: an empty component, such as after a slash at the end, stands for ".". *)
Definition steps (text : bytes) : path := map (fun c => match c with [] => [46] | _ => c end) (split text).

(** Where a path name leads from the directory [cwd]; a link at the end is not followed unless a
    slash or "." comes after it. *)
Definition place_in (t : tree) (cwd : path) (text : bytes) : option path :=
  match text with
  | [] => None
  | c :: _ => walk t LINKS (if c =? 47 then [] else cwd) (steps text)
  end.

(** The file behind a chain of links. *)
Fixpoint follow (t : tree) (links : nat) (p : path) : option path :=
  match lookup t p with
  | None => None
  | Some (KLink tgt) => match links with O => None | S l => match walk t l [] tgt with Some q => follow t l q | None => None end end
  | Some _ => Some p
  end.

Definition file_in (t : tree) (cwd : path) (text : bytes) : option path :=
  match place_in t cwd text with Some p => follow t LINKS p | None => None end.

Definition lstat_in (t : tree) (cwd : path) (text : bytes) : option kind :=
  match place_in t cwd text with Some p => lookup t p | None => None end.
Definition stat_in (t : tree) (cwd : path) (text : bytes) : option kind :=
  match file_in t cwd text with Some p => lookup t p | None => None end.

Definition unlink_in (t : tree) (cwd : path) (text : bytes) : tree * bool :=
  match place_in t cwd text with
  | Some p => match lookup t p with None | Some KDir => (t, false) | Some _ => (del t p, true) end
  | None => (t, false)
  end.

Definition symlink_in (t : tree) (cwd : path) (target text : bytes) : tree * bool :=
  match place_in t cwd text with
  | Some p =>
      match lookup t p, lookup t (removelast p) with
      | None, Some KDir => ((p, KLink (components target)) :: t, true)
      | _, _ => (t, false)
      end
  | None => (t, false)
  end.

(** The path name of a place. *)
Definition text_of (p : path) : bytes := match p with [] => [47] | _ => render p end.

Definition readlink_in (t : tree) (cwd : path) (text : bytes) : option bytes :=
  match lstat_in t cwd text with Some (KLink tgt) => Some (text_of tgt) | _ => None end.
Definition realpath_in (t : tree) (cwd : path) (text : bytes) : option bytes :=
  match file_in t cwd text with Some p => Some (text_of p) | None => None end.

(** Nothing in the tree is a link. *)
Definition linkless (t : tree) : Prop := forall p g, lookup t p <> Some (KLink g).
