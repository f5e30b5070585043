(** Model of utf8/utf8_file_dir.cpp (POSIX part): File::Exists 1533-1540, Realpath 1542-1551,
    Delete 1645-1651, Stat 1653-1659, Symlink 1661-1664, Readlink 1666-1671 on a tree with links.
    Dir::Open and Rmdir on the same tree are in M_Dir.  Definitions only.

    The local array Filename2 of 8192 bytes holds anything at first.  Permissions and other
    processes are not modelled, and a path name is never too long for the system. *)
From Verif Require Import Base S_Path S_Tree S_Where M_Path M_Dir.
Open Scope N_scope.

Section Where.
(** char is signed; the physical path of the current directory; the contents of Filename2. *)
Variable sgn : bool.
Variable cwd : path.
Variable g : bytes -> bytes.

(** 1647-1648, 1655-1656 — GetPlatformFilename(Filename2, 8192, name): the text, or [None] *)
Definition platname (name : bytes) : res (option bytes) :=
  let* (r, ok) := GetPlatformFilename sgn (g name) name in
  if ok then let* s := cstr r in Ok (Some s) else Ok None.

(** 1653-1659 — [None]: false is returned *)
Definition Stat (t : tree) (name : bytes) (link : bool) : res (option kind) :=
  let* o := platname name in
  match o with Some s => Ok (if link then lstat_in t cwd s else stat_in t cwd s) | None => Ok None end.

(** 1533-1540 — Link is false by default (utf8_file_dir.h) *)
Definition Exists_ (t : tree) (name : bytes) : res bool :=
  let* o := Stat t name false in Ok (match o with Some _ => true | None => false end).

(** 1645-1651 *)
Definition Delete (t : tree) (name : bytes) : res (tree * bool) :=
  let* o := platname name in
  match o with Some s => Ok (unlink_in t cwd s) | None => Ok (t, false) end.

(** 1661-1664 — the names go to the system as they are *)
Definition Symlink (t : tree) (src dest : bytes) : tree * bool := symlink_in t cwd dest src.

(** 1666-1671 — [b]: Result; the same *)
Definition Readlink_at (t : tree) (b name : bytes) : bytes * bool :=
  match readlink_in t cwd name with Some s => Readlink b s | None => (b, false) end.

(** 1542-1551 — [b]: Result; the same *)
Definition Realpath (t : tree) (b name : bytes) : res (bytes * bool) :=
  match realpath_in t cwd name with
  | None => Ok (b, false)
  | Some s =>
      let y := length s in
      let* b1 := (if (y + 1 <=? length b)%nat then blit b 0 (s ++ [0]) else Ok b) in
      Ok (b1, (y + 1 <=? length b)%nat)
  end.
End Where.
