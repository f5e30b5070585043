(** Model of utf8/utf8_file_dir.cpp (POSIX part): File::Open 1207-1279, Seek 1281-1301,
    Read 1303-1326, Write 1328-1349, UpdateMaxPos 1360-1369, Close 1371-1380, and the copying
    loop of File::Copy 1600-1610.  Definitions only.

    The operating system side is one regular file: its bytes and the offset of the open
    descriptor; nobody else changes the file while it is open.  O_APPEND, file sizes of 2^63
    and more and failing lseek64/fstat are not modelled.  Each read(2)/write(2) consumes one
    event: it transfers at most the given number of bytes (a write at least none, a read at
    least one unless at the end of the file), is interrupted (EINTR), or fails otherwise. *)
From Verif Require Import Base S_File.
Open Scope N_scope.

Inductive ev := Part (k : nat) | Intr | Fail.

(** The descriptor: bytes of the file, offset, number of events used. *)
Record disk := Disk { data : bytes; off : N; used : nat }.
(** The File object: MxFile <> -1, MxRead, MxWrite, MxCurrPos, MxMaxPos. *)
Record file := File { opened : bool; reads : bool; writes : bool; curr : N; max : N }.

Section Env.
(** The events of read(2) and of write(2), by number of calls made so far. *)
Variables er ew : nat -> ev.

Definition tick (d : disk) : disk := Disk (data d) (off d) (S (used d)).

(** read(2) of [n] bytes: [None] an error with errno other than EINTR, [Some None] EINTR. *)
Definition sys_read (d : disk) (n : nat) : disk * option (option bytes) :=
  match er (used d) with
  | Fail => (tick d, None)
  | Intr => (tick d, Some None)
  | Part k =>
      let b := firstn (Nat.min n (Nat.max 1 k)) (skipn (N.to_nat (off d)) (data d)) in
      (Disk (data d) (off d + N.of_nat (length b)) (S (used d)), Some (Some b))
  end.

(** write(2): bytes at the offset; a gap is filled with zeros. *)
Definition sys_write (d : disk) (b : bytes) : disk * option (option nat) :=
  match ew (used d) with
  | Fail => (tick d, None)
  | Intr => (tick d, Some None)
  | Part k =>
      let w := firstn k b in
      let o := N.to_nat (off d) in
      (Disk (firstn o (data d) ++ repeat 0 (o - length (data d)) ++ w ++ skipn (o + length w) (data d))
         (off d + N.of_nat (length w)) (S (used d)), Some (Some (length w)))
  end.

(** 1360-1369 *)
Definition UpdateMaxPos (f : file) (d : disk) : file * bool :=
  if opened f then (File true (reads f) (writes f) (curr f) (N.of_nat (length (data d))), true)
  else (f, false).

(** 1281-1301 *)
Definition Seek (f : file) (d : disk) (w : whence) (pos : N) : file * disk * bool :=
  if negb (opened f) then (f, d, false)
  else
    let t := match w with
      | FromStart => if pos <=? max f then pos else max f
      | FromEnd => if pos <=? max f then max f - pos else 0
      | Forward => if w64 (curr f + pos) <=? max f then w64 (curr f + pos) else max f
      | Backward => if pos <=? curr f then curr f - pos else 0
      end in
    (File true (reads f) (writes f) t (max f), Disk (data d) t (used d), true).

(** 64-bit unsigned subtraction *)
Definition sub64 (a b : N) : N := if b <=? a then a - b else W64 + a - b.

(** 1316-1321 — read(2) repeated while interrupted *)
Fixpoint read_loop (fuel : nat) (d : disk) (n : nat) : res (disk * option bytes) :=
  match fuel with
  | O => Fuel
  | S g => match sys_read d n with
      | (d1, None) => Ok (d1, None)
      | (d1, Some None) => read_loop g d1 n
      | (d1, Some (Some b)) => Ok (d1, Some b)
      end
  end.

(** 1303-1326 — the answer: success, bytes stored at Data; their number is DataRead. *)
Definition Read (fuel : nat) (f : file) (d : disk) (n : N) : res (file * disk * bool * bytes) :=
  if negb (opened f) || negb (reads f) then Ok (f, d, false, [])
  else
    let f1 := if sub64 (max f) (curr f) <? n then fst (UpdateMaxPos f d) else f in
    let n1 := if sub64 (max f) (curr f) <? n
              then (if sub64 (max f1) (curr f1) <? n then sub64 (max f1) (curr f1) else n) else n in
    if n1 =? 0 then Ok (f1, d, true, [])
    else
      let* (d1, r) := read_loop fuel d (N.to_nat n1) in
      match r with
      | None => Ok (f1, d1, false, [])
      | Some b => Ok (File true (reads f1) (writes f1) (w64 (curr f1 + N.of_nat (length b))) (max f1), d1, true, b)
      end.

(** 1335-1344 — [i] is DataWritten and the number of bytes Data has moved, [i + left] is
    the size of the data.  An interrupted write(2) returns -1, so both go back by one and the
    rest grows by one; before the first byte that leaves the data. *)
Fixpoint write_loop (fuel : nat) (d : disk) (b : bytes) (i left : nat) : res (disk * bool * nat) :=
  match fuel with
  | O => Fuel
  | S g => match sys_write d (firstn left (skipn i b)) with
      | (d1, None) => Ok (d1, false, i)
      | (d1, Some None) => match i with O => UB | S j => write_loop g d1 b j (S left) end
      | (d1, Some (Some n)) =>
          if (left - n =? 0)%nat then Ok (d1, true, (i + n)%nat)
          else write_loop g d1 b (i + n) (left - n)
      end
  end.

(** 1328-1349 — the answer: success and DataWritten *)
Definition Write (fuel : nat) (f : file) (d : disk) (b : bytes) : res (file * disk * bool * N) :=
  if negb (opened f) || negb (writes f) then Ok (f, d, false, 0)
  else if (length b =? 0)%nat then Ok (f, d, true, 0)
  else
    let* (d1, ok, n) := write_loop fuel d b 0 (length b) in
    if ok then
      let c := w64 (curr f + N.of_nat n) in
      Ok (File true (reads f) (writes f) c (if max f <? c then c else max f), d1, true, N.of_nat n)
    else Ok (f, d1, false, N.of_nat n).

Definition fexec (fuel : nat) (f : file) (d : disk) (o : fop) : res (file * disk * fans) :=
  match o with
  | FSeek w k => let '(f1, d1, b) := Seek f d w k in Ok (f1, d1, ADone b)
  | FRead n => let* (f1, d1, b, x) := Read fuel f d n in Ok (f1, d1, ABytes b x)
  | FWrite x => let* (f1, d1, b, n) := Write fuel f d x in Ok (f1, d1, AWrote b n)
  end.
End Env.

(** 1371-1380 *)
Definition Close (f : file) : file := File false (reads f) (writes f) (curr f) (max f).

Inductive access := RDONLY | WRONLY | RDWR | BADACCESS.
Inductive share := ShareNone | ShareRead | ShareWrite | ShareBoth | BadShare.

(** 1207-1279 — [open_ok]: open(2) succeeds (the name is acceptable); [lock_ok]: nobody else
    holds a conflicting lock; [size0]: the size of the file opened. *)
Definition Open (f : file) (a : access) (s : share) (open_ok lock_ok : bool) (size0 : N) : file * bool :=
  let f0 := Close f in
  match a with
  | BADACCESS => (f0, false)
  | _ =>
      let f1 := File false (match a with WRONLY => false | _ => true end) (match a with RDONLY => false | _ => true end)
                  (curr f0) (max f0) in
      if negb open_ok then (f1, false)
      else
        let f2 := File true (reads f1) (writes f1) (curr f1) (max f1) in
        match s with
        | BadShare => (f2, false)
        | _ => if lock_ok then (File true (reads f2) (writes f2) 0 size0, true) else (f2, false)
        end
  end.

(** A file just opened: offset 0, MxCurrPos 0, MxMaxPos the size. *)
Definition fresh_file (a : access) (c : bytes) : file * disk :=
  (fst (Open (File false false false 0 0) a ShareNone true true (N.of_nat (length c))), Disk c 0 0).

(** 1600 *)
Definition COPY : nat := N.to_nat 8192.

(** 1604-1607 — [buf]: the bytes of Buffer; line 1606 always writes all of it and ignores
    failures.  [er], [ew]: the events of the source and of the destination. *)
Fixpoint copy_loop (fuel : nat) (er ew : nat -> ev) (sf : file) (sd : disk) (df : file) (dd : disk) (buf : bytes)
    : res (file * disk) :=
  match fuel with
  | O => Fuel
  | S g =>
      let* (sf1, sd1, ok, b) := Read er fuel sf sd (N.of_nat COPY) in
      if negb ok || (length b =? 0)%nat then Ok (df, dd)
      else
        let buf1 := b ++ skipn (length b) buf in
        let* (df1, dd1, ok2, n) := Write ew fuel df dd buf1 in
        copy_loop g er ew sf1 sd1 df1 dd1 buf1
  end.

(** 1595-1614 — contents of the destination after copying [src] over [dst]; [buf]: the
    uninitialised Buffer; line 1610 truncates to the destination's position. *)
Definition Copy (fuel : nat) (er ew : nat -> ev) (src dst buf : bytes) : res bytes :=
  let (sf, sd) := fresh_file RDONLY src in
  let (df, dd) := fresh_file WRONLY dst in
  let* (df1, dd1) := copy_loop fuel er ew sf sd df dd buf in
  let n := N.to_nat (curr df1) in
  Ok (firstn n (data dd1) ++ repeat 0 (n - length (data dd1))).

(** 1629-1643 — contents of the destination and whether the source is still there;
    [rename_ok]: rename(2) succeeds.  Both files can be opened. *)
Definition Move (fuel : nat) (er ew : nat -> ev) (rename_ok : bool) (src dst buf : bytes) : res (bytes * bool) :=
  if rename_ok then Ok (src, false)
  else let* r := Copy fuel er ew src dst buf in Ok (r, false).
