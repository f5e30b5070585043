(** A file system as programs see it: what POSIX says about path names, lstat, unlink, rmdir,
    mkdir and opendir.  This is the environment, not the modelled code. *)
From Verif Require Import Base S_Path.
Open Scope N_scope.

Definition path := list bytes.
(** Symbolic links point to absolute paths here. *)
Inductive kind := KFile | KLink (target : path) | KDir.
(** Every file and directory except the root, by its physical path. *)
Definition tree := list (path * kind).

Definition path_dec : forall a b : path, {a = b} + {a <> b} := list_eq_dec (list_eq_dec N.eq_dec).

Fixpoint entry (t : tree) (p : path) : option kind :=
  match t with [] => None | (q, k) :: r => if path_dec q p then Some k else entry r p end.
Definition lookup (t : tree) (p : path) : option kind := match p with [] => Some KDir | _ => entry t p end.
Definition del (t : tree) (p : path) : tree := filter (fun e => if path_dec (fst e) p then false else true) t.

(** The components of a path name as it is typed. *)
Definition components (text : bytes) : path := filter (fun c => match c with [] => false | _ => true end) (split text).

(** Where a path name leads, from [cur]: links on the way are followed, at most [links] of them,
    one at the end is not. *)
Fixpoint walk (t : tree) (links : nat) : path -> path -> option path :=
  fix go (cur rest : path) {struct rest} : option path :=
    match rest with
    | [] => Some cur
    | c :: r =>
        if list_eq_dec N.eq_dec c [46] then go cur r
        else if list_eq_dec N.eq_dec c [46; 46] then go (removelast cur) r
        else match r with
          | [] => Some (cur ++ [c])
          | _ => match lookup t (cur ++ [c]) with
              | Some KDir => go (cur ++ [c]) r
              | Some (KLink tgt) => match links with O => None | S l => walk t l [] (tgt ++ r) end
              | _ => None
              end
          end
    end.

(** The limit on links. *)
Definition LINKS : nat := 40.
Definition place_of (t : tree) (text : bytes) : option path :=
  match text with [] => None | _ => walk t LINKS [] (components text) end.

Definition lstat (t : tree) (text : bytes) : option kind :=
  match place_of t text with Some p => lookup t p | None => None end.

(** Names in a directory. *)
Fixpoint strip (p q : path) : option path :=
  match p, q with
  | [], _ => Some q
  | a :: p1, b :: q1 => if list_eq_dec N.eq_dec a b then strip p1 q1 else None
  | _ :: _, [] => None
  end.
Definition children (t : tree) (p : path) : list bytes :=
  flat_map (fun e => match strip p (fst e) with Some [c] => [c] | _ => [] end) t.

Definition unlink (t : tree) (text : bytes) : tree * bool :=
  match place_of t text with
  | Some p => match lookup t p with None | Some KDir => (t, false) | Some _ => (del t p, true) end
  | None => (t, false)
  end.

Definition rmdir (t : tree) (text : bytes) : tree * bool :=
  match place_of t text with
  | Some ((_ :: _) as p) =>
      match lookup t p with Some KDir => if (length (children t p) =? 0)%nat then (del t p, true) else (t, false) | _ => (t, false) end
  | _ => (t, false)
  end.

Definition mkdir (t : tree) (text : bytes) : tree * bool :=
  match place_of t text with
  | Some p =>
      match lookup t p, lookup t (removelast p) with
      | None, Some KDir => ((p, KDir) :: t, true)
      | _, _ => (t, false)
      end
  | None => (t, false)
  end.

(** opendir follows a link at the end, too; reading gives the names and "." and "..". *)
Fixpoint dir_at (t : tree) (links : nat) (p : path) : option path :=
  match lookup t p with
  | Some KDir => Some p
  | Some (KLink tgt) => match links with O => None | S l => match walk t l [] tgt with Some q => dir_at t l q | None => None end end
  | _ => None
  end.
Definition opendir (t : tree) (text : bytes) : option (list bytes) :=
  match place_of t text with
  | Some p => match dir_at t LINKS p with Some q => Some ([46] :: [46; 46] :: children t q) | None => None end
  | None => None
  end.

(** A name as file systems have it. *)
Definition fname (c : bytes) : Prop := c <> [] /\ ~ In 47 c /\ Forall (fun x => 0 < x < 256) c /\ c <> [46] /\ c <> [46; 46].
(** Every path is made of names, and its parent is a directory. *)
Definition sound (t : tree) : Prop :=
  (forall p k, In (p, k) t -> p <> [] /\ Forall fname p) /\
  (forall p c, lookup t (p ++ [c]) <> None -> lookup t p = Some KDir).

Definition under (p q : path) : Prop := exists r, q = p ++ r.
