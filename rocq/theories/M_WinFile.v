(** Model of utf8/utf8_file_dir.cpp (Windows part): File::Seek 135-159, Read 161-179, Write
    181-194, UpdateMaxPos 205-215, Chmod 667-684, the time of File::Copy 717-718, the mode and
    the times of Stat 833-850, Readlink 909-959, ConvertFILETIMEToUnixTime 961-971,
    ConvertUnixMicrosecondTimeToFILETIME 973-985, Dir::Read 1051-1063.  Definitions only.

    The file and the handle are the records of M_File, Seek is the same code; SetFilePointer and
    GetFileSize do not fail.  ReadFile and WriteFile transfer as the events of M_File say;
    [Intr] stands for a failure like [Fail]. *)
From Verif Require Import Base S_File S_WinFile M_File M_Utf8.
Open Scope N_scope.

Section Env.
Variables er ew : nat -> ev.

(** (DWORD)DataSize *)
Definition dword (n : N) : nat := N.to_nat (n mod DWORD).

(** 161-179 *)
Definition WRead (f : file) (d : disk) (n : N) : file * disk * bool * bytes :=
  if negb (opened f) || negb (reads f) then (f, d, false, [])
  else
    let f1 := if sub64 (max f) (curr f) <? n then fst (UpdateMaxPos f d) else f in
    let n1 := if sub64 (max f) (curr f) <? n
              then (if sub64 (max f1) (curr f1) <? n then sub64 (max f1) (curr f1) else n) else n in
    if n1 =? 0 then (f1, d, true, [])
    else match sys_read er d (dword n1) with
      | (d1, Some (Some b)) =>
          (File true (reads f1) (writes f1) (w64 (curr f1 + N.of_nat (length b))) (max f1), d1, true, b)
      | (d1, _) => (f1, d1, false, [])
      end.

(** 181-194 — the answer: success and DataWritten *)
Definition WWrite (f : file) (d : disk) (b : bytes) : file * disk * bool * N :=
  if negb (opened f) || negb (writes f) then (f, d, false, 0)
  else if (length b =? 0)%nat then (f, d, true, 0)
  else match sys_write ew d (firstn (dword (N.of_nat (length b))) b) with
    | (d1, Some (Some n)) =>
        let c := w64 (curr f + N.of_nat n) in
        (File true (reads f) (writes f) c (if max f <? c then c else max f), d1, true, N.of_nat n)
    | (d1, _) => (f, d1, false, 0)
    end.

Definition wexec (f : file) (d : disk) (o : fop) : file * disk * fans :=
  match o with
  | FSeek w k => let '(f1, d1, b) := Seek f d w k in (f1, d1, ADone b)
  | FRead n => let '(f1, d1, b, x) := WRead f d n in (f1, d1, ABytes b x)
  | FWrite x => let '(f1, d1, b, n) := WWrite f d x in (f1, d1, AWrote b n)
  end.
End Env.

(** ** Times *)

(** 116444736000000000ULL in lines 717, 968 and 978 *)
Definition OFFSET : N := 116444736000000000.

(** 961-971 — [ft]: both words of the FILETIME; a value below OFFSET wraps *)
Definition ConvertFILETIMEToUnixTime (ft : N) : N := sub64 ft OFFSET / 10000000.

(** 973-985 — the product and the sum wrap *)
Definition ConvertUnixMicrosecondTimeToFILETIME (us : N) : N := w64 (w64 (us * 10) + OFFSET).

(** 717-718 with 987-1018 — the last update of the copy, from that of the source *)
Definition copied_time (ft : N) : N := ConvertUnixMicrosecondTimeToFILETIME (sub64 ft OFFSET / 10).

(** ** Permissions *)

(** 667-684 — from the attributes to those set, [None]: false is returned; both are 32 bits *)
Definition Chmod (attrs mode : N) : option N :=
  if negb (N.land attrs 16 =? 0) then None
  else
    let a1 := N.land attrs (0xFFFFFFFF - 1) in
    let a2 := N.land a1 (0xFFFFFFFF - 128) in
    let a3 := if (N.land mode 219 =? 0) && negb (N.land mode 292 =? 0) then N.lor a2 1 else a2 in
    Some (if a3 =? 0 then N.lor a3 128 else a3).

(** 833-835 — the permissions Stat shows for a file that is neither a directory nor a link; the
    execution bits of lines 837-843 left out *)
Definition stat_mode (attrs : N) : N := if negb (N.land attrs 1 =? 0) then 292 else 438.

(** ** Links *)

(** The words of PathBuffer in the zeroed array of 16384 bytes, for a symbolic link and for a
    mount point: what the system stored, then zeros. *)
Definition path_buffer (symlink : bool) (path : list N) : list N :=
  firstn (N.to_nat (if symlink then 8182 else 8184))
    (path ++ repeat 0 (N.to_nat (if symlink then 8182 else 8184) - length path)).

(** 940-951 — [off] and [len]: SubstituteNameOffset and SubstituteNameLength, which count bytes;
    [b]: Result, its length ResultSize *)
Definition WReadlink (symlink : bool) (path : list N) (off len : nat) (b : bytes) : res (bytes * bool) :=
  let* w := slice (path_buffer symlink path) off len in
  let* (o, y, _) := ConvertToUTF8 Wd2 w (Some b) (length b) in
  match o with
  | None => UB
  | Some b1 => if (y <? length b)%nat then let* b2 := wr b1 y 0 in Ok (b2, true) else Ok (b1, false)
  end.

(** ** Directories *)

(** 1051-1063 — [e]: the name in MxFindData and those FindNextFileW will give, none: the handle
    is closed; [b]: Filename, its length Size *)
Definition WDir_Read (e : list (list N)) (b : bytes) : res (list (list N) * bytes * bool) :=
  match e with
  | [] => Ok ([], b, false)
  | n :: r =>
      let* (o, y, _) := ConvertToUTF8 Wd2 (n ++ [0]) (Some b) (length b) in
      match o with
      | None => UB
      | Some b1 => if (length b =? y)%nat then Ok (e, b1, false) else Ok (r, b1, true)
      end
  end.
