(** Model of utf8/utf8_file_dir.cpp (POSIX part): who may read the copy while File::Copy 1584-1627
    makes it.  Definitions only.

    Source and destination are regular files, or the destination does not exist; nobody else changes
    their attributes.  The directories let the user in. *)
From Verif Require Import Base S_Attr S_Secret M_Attr.
Open Scope N_scope.

Section Copy.
Variable strip : N -> N.       (* see M_Attr *)
Variable u : user.             (* who copies *)
Variable mask : N.             (* umask *)
Variable newgroup : N.         (* group of new files *)

(** 1595: File::Open 1245, open with O_CREAT; the attributes of the open file, [None]: it fails *)
Definition open_dest (src : attrs) (dest : option attrs) (now : time) : option attrs :=
  match dest with
  | None => Some (Attrs (euid u) newgroup (N.ldiff (perms src mod 512) mask) now now)
  | Some d => if may_write u d then Some d else None
  end.

(** 1594-1624: the attributes of the copy from the moment on where it has contents of the source,
    after each system call that changes them; [None]: Copy fails.  The times that writing the
    contents sets are left out. *)
Definition Copy_moments (src : attrs) (dest : option attrs) (now : time) : option (list attrs) :=
  if may_read u src then
    match open_dest src dest now with
    | Some d0 =>
        let d1 := fst (sys_chown strip u d0 (Some (owner src)) (Some (group src))) in
        let d2 := fst (sys_chmod u d1 (perms src)) in
        let d3 := fst (sys_utimes u d2 (fst (atime d2), 0) (fst (mtime src), 0)) in
        Some [d0; d1; d2; d3]
    | None => None
    end
  else None.
End Copy.
