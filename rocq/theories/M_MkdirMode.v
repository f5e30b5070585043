(** Dir::Mkdir (POSIX) with its mode: utf8/utf8_file_dir.cpp 1770-1794, as in M_Dir, in a file system
    whose directories have owners and rights.  Definitions only.

    There are only directories on the way: links and files are those of M_Dir.  mkdir uses the nine
    bits of the mode that the mask leaves (set-group-id directories and access lists, which change
    this, are not modelled). *)
From Verif Require Import Base S_Path S_Tree S_Attr S_Secret M_Path M_Dir.
Open Scope N_scope.

(** The directories, the root included. *)
Definition dirs := path -> option attrs.
Definition set_dir (st : dirs) (p : path) (a : attrs) : dirs := fun q => if path_dec q p then Some a else st q.

Section Mode.
Variable u : user.
Variables mask newgroup mode : N.
Variable now : time.
Definition new_dir : attrs := Attrs (euid u) newgroup (N.ldiff (mode mod 512) mask) now now.

(** every directory from [cur] on that has to be passed on the way down [rest] can be *)
Fixpoint reach (st : dirs) (cur rest : path) : bool :=
  match rest with
  | [] => true
  | c :: r => match st cur with Some a => may 0 u a && reach st (cur ++ [c]) r | None => false end
  end.
(** the system call *)
Definition mkdir_m (st : dirs) (text : bytes) : dirs * bool :=
  let p := components text in
  if reach st [] p then
    match st p, st (removelast p) with
    | None, Some a => if may 1 u a then (set_dir st p new_dir, true) else (st, false)
    | _, _ => (st, false)
    end
  else (st, false).

(** 1782-1790 — from position [x] on *)
Fixpoint mkdirs_m (n : nat) (st : dirs) (d : bytes) (x : nat) : dirs :=
  match n with
  | O => st
  | S m => mkdirs_m m (if nth x d 0 =? slash then fst (mkdir_m st (firstn x d)) else st) d (S x)
  end.

(** 1770-1794 *)
Definition Mkdir_m (sgn : bool) (cwd : bytes) (g2 g3 gr : bytes -> bytes) (st : dirs) (name : bytes) (recursive : bool) : res (dirs * bool) :=
  let* o := absname sgn cwd g2 g3 gr name in
  match o with
  | None => Ok (st, false)
  | Some d =>
      let st1 := if recursive then mkdirs_m (length d - after_slash d) st d (after_slash d) else st in
      Ok (mkdir_m st1 d)
  end.
End Mode.
