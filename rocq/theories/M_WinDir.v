(** Model of utf8/utf8_file_dir.cpp (Windows part): File::GetWindowsPlatformFilename 508-517,
    Dir::Mkdir 1093-1131, Dir::Rmdir 1133-1153, Rmdir_RecurseInternal 1155-1190.
    Definitions only.

    Buffers of WCHAR are lists of 16-bit units.  A directory is read as it was when FindFirstFileW
    was called; other processes, and permissions except the read-only attribute, are not modelled. *)
From Verif Require Import Base S_Utf8 M_Utf8 S_Tree S_WinTree M_WinPath.
Open Scope N_scope.

(** 508-517 — [g]: what the local array holds at first; [b]: Result, its length ResultSize *)
Definition GetWindowsPlatformFilename (sgn : bool) (vol : bytes -> option N) (g b : bytes) (name : bytes) (unsafe : bool) : res (bytes * bool) :=
  let* (r, ok) := WGetPlatformFilename sgn vol g name unsafe in
  if negb ok then Ok (b, false)
  else
    let* s := cstr r in
    let* (o, _) := ConvertFromUTF8 Wd2 (s ++ [0]) (Some b) (length b) in
    match o with Some b1 => Ok (b1, true) | None => UB end.

Section WinDir.
Variable v : bytes.
Variables ro dl : path -> bool.

(** 1168-1186 — the loop over the entries; [deeper]: the recursive call *)
Fixpoint each_found (deeper : tree -> bytes -> nat -> res (tree * bytes)) (size : nat) (es : list found) (t : tree) (b : bytes) : res (tree * bytes) :=
  match es with
  | [] => Ok (t, b)
  | e :: r =>
      let n := cFileName e in
      if list_eq_dec N.eq_dec n [46] then each_found deeper size r t b
      else if list_eq_dec N.eq_dec n [46; 46] then each_found deeper size r t b
      else
        let y := (length n + 1)%nat in
        if (size + 1 + y <=? N.to_nat 8191)%nat then
          let* b1 := blit b (size + 1) (n ++ [0]) in
          if negb (is_dir e) then
            let* s := cstr b1 in
            each_found deeper size r (fst (DeleteFileW v ro dl t s)) b1
          else
            let* (t1, b2) := if is_reparse e then Ok (t, b1) else deeper t b1 (size + y)%nat in
            let* s := cstr b2 in
            each_found deeper size r (fst (RemoveDirectoryW v ro dl t1 s)) b2
        else each_found deeper size r t b
  end.

(** 1155-1190 — [b]: Dirname *)
Fixpoint WRmdir_RecurseInternal (fuel : nat) (t : tree) (b : bytes) (size : nat) : res (tree * bytes) :=
  match fuel with
  | O => Fuel
  | S g =>
      if (N.to_nat 8190 <=? size)%nat then Ok (t, b)
      else
        let* b1 := wr b size 92 in
        let* b2 := wr b1 (size + 1) 42 in
        let* b3 := wr b2 (size + 2) 0 in
        let* s := cstr b3 in
        let* (t1, b4) :=
          match find_all v dl t s with
          | None => Ok (t, b3)
          | Some es => each_found (WRmdir_RecurseInternal g) size es t b3
          end in
        let* b5 := wr b4 size 0 in
        Ok (t1, b5)
  end.

(** char is signed; the volume letters; the current directory; what the local arrays of
    GetAbsoluteFilename, Dirname2 and Dirname3 hold at first. *)
Variable sgn : bool.
Variable vol : bytes -> option N.
Variable cwd : option bytes.
Variables g2 g3 gr gw : bytes.

(** 1095-1103, 1135-1143 — Dirname3 and y2, [None]: false is returned *)
Definition wide_name (name : bytes) : res (option (bytes * nat)) :=
  let* (r, ok) := WGetAbsoluteFilename sgn vol g2 g3 cwd gr None name false in
  if negb ok then Ok None
  else
    let* s := cstr r in
    let* (o, y2) := ConvertFromUTF8 Wd2 (s ++ [0]) (Some gw) (length gw) in
    match o with Some w => Ok (Some (w, y2)) | None => UB end.

(** 1133-1153 — y2 - 1 is the largest size_t when y2 is 0, and then nothing is recursed into *)
Definition WRmdir (fuel : nat) (t : tree) (name : bytes) (recursive : bool) : res (tree * bool) :=
  let* o := wide_name name in
  match o with
  | None => Ok (t, false)
  | Some (w, y2) =>
      let* s := cstr w in
      let* (t1, w1) :=
        (if recursive then
           match GetFileAttributesW v t s with
           | Some false => if (y2 =? 0)%nat then Ok (t, w) else WRmdir_RecurseInternal fuel t w (y2 - 1)
           | _ => Ok (t, w)
           end
         else Ok (t, w)) in
      let* s1 := cstr w1 in
      Ok (RemoveDirectoryW v ro dl t1 s1)
  end.

(** 1117-1118 — position of the first backslash or of the end, from [x] on *)
Fixpoint to_bs_or_end (n : nat) (w : bytes) (x : nat) : nat :=
  match n with
  | O => x
  | S m => if (nth x w 0 =? 0) || (nth x w 0 =? 92) then x else to_bs_or_end m w (S x)
  end.

(** 1119-1127 — the loop; the text up to [x] names each directory *)
Fixpoint wmkdirs (n : nat) (t : tree) (s : bytes) (x : nat) : tree :=
  match n with
  | O => t
  | S m => wmkdirs m (if nth x s 0 =? 92 then fst (CreateDirectoryW v t (firstn x s)) else t) s (S x)
  end.

(** 1093-1131 — the terminator put in place of a backslash and taken back is represented by the
    text in front of it; security attributes are not modelled *)
Definition WMkdir (t : tree) (name : bytes) (recursive : bool) : res (tree * bool) :=
  let* (r, ok) := WGetAbsoluteFilename sgn vol g2 g3 cwd gr None name false in
  if negb ok then Ok (t, false)
  else
    let* s8 := cstr r in
    let* (o, _) := ConvertFromUTF8 Wd2 (s8 ++ [0]) (Some gw) (length gw) in
    match o with
    | None => UB
    | Some w =>
        let* s := cstr w in
        let x := to_bs_or_end (length s - StartVolume (WGetPlatformFilenameInfo s8)) s (StartVolume (WGetPlatformFilenameInfo s8)) in
        let x1 := if nth x s 0 =? 92 then S x else x in
        let t1 := if recursive then wmkdirs (length s - x1) t s x1 else t in
        Ok (CreateDirectoryW v t1 s)
    end.
End WinDir.
