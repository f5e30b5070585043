(** Recursive Dir::Rmdir (POSIX) when a limited number of directories can be open at the same time:
    utf8/utf8_file_dir.cpp 1796-1845, as in M_Dir.  Definitions only.

    [n]: how many directories the process can still open (the limit on file descriptors, which is often
    1024, less those in use).  Rmdir_RecurseInternal keeps its directory open while it calls itself
    (1820-1839), so that one less is left for the inner call. *)
From Verif Require Import Base S_Path S_Tree M_Path M_Dir.
Open Scope N_scope.

Section Fds.
Variable sgn : bool.
Variable cwd : bytes.
Variables g2 g3 gr : bytes -> bytes.

(** 1812-1845 *)
Fixpoint recurse (n : nat) (t : tree) (d : bytes) : res tree :=
  if (N.to_nat 8190 <=? length d)%nat then Ok t
  else
    match n with
    | O => Ok t                       (* 1819: opendir fails *)
    | S m =>
        let* o := dir_open sgn cwd g2 g3 gr t d in
        match o with
        | None => Ok t
        | Some names => each_entry (recurse m) d names t
        end
    end.

(** 1796-1810 *)
Definition Rmdir_fds (n : nat) (t : tree) (name : bytes) (recursive : bool) : res (tree * bool) :=
  let* o := absname sgn cwd g2 g3 gr name in
  match o with
  | None => Ok (t, false)
  | Some d =>
      let* t1 :=
        (if recursive then
           match lstat t d with
           | None => Ok t
           | Some (KLink _) => Ok t
           | Some _ => recurse n t d
           end
         else Ok t) in
      Ok (rmdir t1 d)
  end.
End Fds.
