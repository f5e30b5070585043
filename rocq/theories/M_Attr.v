(** Model of utf8/utf8_file_dir.cpp (POSIX part): File::Chmod 1554-1560, Chown 1562-1571, Chgrp
    1573-1582, the attributes of File::Copy 1615-1624, SetFileTimes 1673-1708.  Definitions only.

    File names are those of M_Path and left out here; the file exists and is a regular file.  Nobody
    else changes the attributes.  time_t and long have 64 bits. *)
From Verif Require Import Base S_Attr.
Open Scope N_scope.

Section Attr.
(** what chown makes of the permissions: systems clear the set-user-ID and set-group-ID bits or not *)
Variable strip : N -> N.
Variable u : user.
Definition root : bool := euid u =? 0.

(** ** System calls, by their POSIX contract *)
(** [o], [g]: None for -1 *)
Definition sys_chown (a : attrs) (o g : option N) : attrs * bool :=
  let o1 := match o with Some x => x | None => owner a end in
  let g1 := match g with Some x => x | None => group a end in
  if root || ((euid u =? owner a) && (o1 =? owner a) && ((g1 =? group a) || member u g1))
  then (Attrs o1 g1 (strip (perms a)) (atime a) (mtime a), true)
  else (a, false).
(** who is not root and not in the file's group cannot set the set-group-ID bit *)
Definition sys_chmod (a : attrs) (m : N) : attrs * bool :=
  if root || (euid u =? owner a)
  then (Attrs (owner a) (group a) (if root || member u (group a) then m mod 4096 else N.clearbit (m mod 4096) 10) (atime a) (mtime a), true)
  else (a, false).
(** utimes, and utime with microseconds 0 *)
Definition sys_utimes (a : attrs) (x y : N * N) : attrs * bool :=
  if root || (euid u =? owner a)
  then (Attrs (owner a) (group a) (perms a) (fst x, snd x * 1000) (fst y, snd y * 1000), true)
  else (a, false).

(** ** The library *)
(** 1554-1560 *)
Definition Chmod (a : attrs) (Mode : N) : attrs * bool := sys_chmod a Mode.
(** 1562-1571 *)
Definition Chown (db : accounts) (a : attrs) (Owner : list N) : attrs * bool :=
  match users db Owner with
  | None => (a, false)
  | Some (pw_uid, pw_gid) => sys_chown a (Some pw_uid) None
  end.
(** 1573-1582: getpwnam *)
Definition Chgrp (db : accounts) (a : attrs) (Group : list N) : attrs * bool :=
  match users db Group with
  | None => (a, false)
  | Some (pw_uid, pw_gid) => sys_chown a None (Some pw_gid)
  end.
(** 1615-1624: results are ignored; [src]: SrcStat, [d]: the copy after its contents were written *)
Definition Copy_attrs (src d : attrs) : attrs :=
  let d1 := fst (sys_chown d (Some (owner src)) (Some (group src))) in
  let d2 := fst (sys_chmod d1 (perms src)) in
  fst (sys_utimes d2 (fst (atime d2), 0) (fst (mtime src), 0)).
(** 1682-1706 *)
Definition timeval (given : option N) (stat_sec : N) : N * N :=
  match given with
  | None => (stat_sec, 0)
  | Some t => (t / 1000000, t mod 1000000)
  end.
Definition SetFileTimes (a : attrs) (LastAccess LastUpdate : option N) : attrs * bool :=
  sys_utimes a (timeval LastAccess (fst (atime a))) (timeval LastUpdate (fst (mtime a))).
End Attr.
