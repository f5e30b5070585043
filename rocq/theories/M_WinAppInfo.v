(** Model of utf8/utf8_appinfo.cpp, Windows part (lines 25-101).  Definitions only.

    [b] is Buffer; its length is the value of BufferSize on entry.  The answer is [None] for
    false (BufferSize is then 0) and [Some n] for true with BufferSize = n, as in M_AppInfo.
    Wide names that come from Windows are lists of 16-bit units, without the terminator. *)
From Verif Require Import Base M_Utf8 M_AppInfo.
Open Scope N_scope.

(** utf8_util.cpp:128-205 as called from here: Buffer after the call and the new size *)
Definition to_buffer (units b : list N) (cap : nat) : res (bytes * nat) :=
  let* r := ConvertToUTF8 Wd2 units (Some b) cap in
  let '(d, z, _) := r in
  match d with Some b' => Ok (b', z) | None => UB end.

(** 25-43 — GetExecutableFilename.  [got]: what GetModuleFileNameW stored, as many units as it
    returned; [] when it fails (lines 34-36; the room is for 8192 units). *)
Definition WExecutableFilename (got : list N) (b : bytes) : res answer :=
  let* b0 := clear b in
  if (N.of_nat (length got) <? 8191) then
    let* (b1, z) := to_buffer (got ++ [0]) b0 (length b0) in
    if (z =? length b1)%nat then Ok (b1, None) else Ok (b1, Some z)
  else Ok (b0, None).

(** 88, 93: a separator, unless the last character is one.  With z = 0 this reads Buffer[-1]. *)
Definition put_back (b : bytes) (z : nat) : res (bytes * nat) :=
  if (z <? length b)%nat then
    match z with
    | O => UB
    | S k =>
        let* c := rd b k in
        if c =? 92 then Ok (b, z) else let* b1 := wr b z 92 in Ok (b1, S z)
    end
  else Ok (b, z).

(** 84-101 — GetWindowsUTF8StorageDir.  [dir] is Dirname up to its terminator (wcslen, line 86),
    [cap] the argument z, the length of [b] the argument z2. *)
Definition WStorageDir (dir : list N) (b : bytes) (appdir : option bytes) (cap : nat) : res answer :=
  let* (b0, z0) := to_buffer dir b cap in
  let* (b1, z1) := put_back b0 z0 in
  let* (b3, z3) :=
    match appdir with
    | None => Ok (b1, z1)
    | Some a => let* (b2, z2) := put_str b1 z1 a in put_back b2 z2
    end in
  let* (b4, z4) := (if (z3 <? length b3)%nat then let* b4 := wr b3 z3 0 in Ok (b4, S z3) else Ok (b3, z3)) in
  if (z4 =? length b4)%nat then Ok (b4, None) else Ok (b4, Some z4).

(** 45-56 and 58-69 — GetSystemAppStorageDir and GetCurrentUserAppStorageDir are the same text but
    for the folder asked for.  [folder]: what SHGetFolderPathW delivers; None: not S_OK. *)
Definition WAppStorageDir (folder : option (list N)) (b : bytes) (appdir : option bytes) : res answer :=
  let* b0 := clear b in
  match folder with
  | None => Ok (b0, None)
  | Some dir => WStorageDir dir b0 appdir (length b)
  end.

(** 71-82 — GetTempStorageDir.  [temp]: what GetTempPathW delivers, [] when it fails.  It returns
    the number of units of the path (line 78; a path of 8192 or more units, for which it
    returns the room needed and stores nothing, is left out). *)
Definition WTempStorageDir (temp : list N) (b : bytes) : res answer :=
  let* b0 := clear b in
  match temp with
  | [] => Ok (b0, None)
  | _ => WStorageDir temp b0 None (length temp)
  end.
