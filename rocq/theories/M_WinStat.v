(** Model of File::Stat (utf8/utf8_file_dir.cpp:750-859) and File::Symlink (883-909) on Windows.
    Definitions only.

    Stat: names are the texts GetPlatformFilename has produced (M_WinPath); times are in M_WinFile;
    [Result] has room for all values.  Symlink: names are lists of components, GetAbsoluteFilename
    is what C84 says of it (names that start with "." or ".." are refused or left as they are,
    C84_dotdot_refuted, and then not found); the privilege is available; no other links are on the way. *)
From Verif Require Import Base S_Path M_Path M_WinPath S_WinStat.
Open Scope N_scope.

(** ** Stat *)

(** GetFileAttributesExW delivers [attr_data]; it does not follow links. *)
Definition READONLY : N := 0.
Definition DIRECTORY : N := 4.
Definition REPARSE : N := 10.

(** 765-800: the number of the volume, from the name, or from the current directory [cwd]
    ([None]: Getcwd fails); [None]: Stat returns false *)
Definition drive_of (f : bytes) : option N :=
  let i := WGetPlatformFilenameInfo f in
  let c := nth (StartVolume i) f 0 in
  if (StartPath i - StartVolume i =? 2)%nat && (65 <=? c) && (c <=? 90) && (nth (StartVolume i + 1) f 0 =? 58) then Some (c - 65)
  else if (0 <? StartVolume i)%nat then Some 0
  else None.
Definition st_dev (f : bytes) (cwd : option bytes) : option Z :=
  match drive_of f with
  | Some d => Some (Z.of_N d)
  | None => match cwd with
      | None => None
      | Some c => match drive_of c with Some d => Some (Z.of_N d) | None => Some (-1)%Z end
      end
  end.

(** 805-831: [tag]: the reparse point could be opened and read, and is a symbolic link or mount point *)
Definition is_link (link : bool) (a : N) (tag : bool) : bool := link && N.testbit a REPARSE && tag.

(** 837-841 *)
Definition exts : list bytes := [[101; 120; 101]; [99; 111; 109]; [98; 97; 116]; [99; 109; 100]].
Definition exe_name (f : bytes) : bool :=
  (4 <? length f)%nat && (nth (length f - 4) f 0 =? 46) && existsb (fun e => starts true e (skipn (length f - 3) f)) exts.

(** 833-843 *)
Definition st_mode (link : bool) (a : attr_data) (tag : bool) (f : bytes) : N :=
  let d := N.testbit (dwFileAttributes a) DIRECTORY in
  let m0 := if is_link link (dwFileAttributes a) tag then 40960 else if d then N.lor 16384 73 else 32768 in
  let m1 := N.lor m0 (if N.testbit (dwFileAttributes a) READONLY then 292 else 438) in
  if negb d && exe_name f then N.lor m1 73 else m1.

(** 848 *)
Definition st_size (a : attr_data) : N := N.lor (N.shiftl (nFileSizeHigh a) 32) (nFileSizeLow a).

Record stat := Stat_ { dev : Z; ino : N; mode : N; size : N }.
(** 750-859; [a]: [None] if GetFileAttributesExW fails *)
Definition Stat (f : bytes) (link : bool) (a : option attr_data) (tag : bool) (cwd : option bytes) : option stat :=
  match a with
  | None => None
  | Some d => match st_dev f cwd with
      | None => None
      | Some v => Some (Stat_ v 0 (st_mode link d tag f) (st_size d))
      end
  end.

(** ** Symlink *)

(** [k]: GetFileAttributesW, for every place whether it is a directory *)
(** The check at 494-503 refuses "." and ".." in front of more, and alone they stay in the name. *)
Definition dot_first (n : name) : bool :=
  match n with
  | Rel (c :: _) => if list_eq_dec N.eq_dec c [46] then true else if list_eq_dec N.eq_dec c [46; 46] then true else false
  | _ => false
  end.

(** 883-909: the place of the link, its text, and whether it is made as a directory link;
    [None]: Symlink returns false.  CreateSymbolicLinkW needs a directory for the link to be in
    and a name that is not taken. *)
Definition Symlink (k : list bytes -> option bool) (cwd : list bytes) (src dest : name) : option (list bytes * name * bool) :=
  let src2 := seen_from cwd src in
  let dest2 := seen_from src2 dest in
  if dot_first src || dot_first dest then None
  else match k dest2 with
    | None => None
    | Some isdir =>
        match src2, k src2, k (removelast src2) with
        | _ :: _, None, Some true => Some (src2, dest, isdir)
        | _, _, _ => None
        end
    end.
