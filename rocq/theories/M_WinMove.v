(** Model of utf8/utf8_file_dir.cpp, Windows part: File::Copy 697-722 without the times (M_WinFile),
    File::Move 724-738, File::Delete 740-748.  Definitions only.

    The wide names (C91) are numbers.  Directories are not modelled; nobody else changes the volume.
    System calls fail when [env] says so, besides the cases of their contract. *)
From Verif Require Import Base S_WinMove.
Open Scope N_scope.

(** FILE_ATTRIBUTE_NORMAL *)
Definition NORMAL : N := 128.

(** What may happen: each call succeeds unless it must fail; a CopyFileW that fails leaves the
    destination as it is, or with other contents; the file a new name gets. *)
Record env := Env { e_info_src : bool; e_info_dest : bool; e_clear : bool; e_copy : bool; e_junk : option (list N); e_restore : bool;
                    e_move : bool; e_delete : bool; e_new : nat }.

Definition put_name (s : vol) (n : nat) (o : option nat) : vol := Vol (fun m => if Nat.eqb m n then o else names s m) (files s).
Definition put_file (s : vol) (i : nat) (f : wf) : vol := Vol (names s) (fun j => if Nat.eqb j i then f else files s j).

(** SetFileAttributesW *)
Definition SetAtt (ok : bool) (s : vol) (n : nat) (a : N) : vol :=
  match names s n with
  | Some i => if ok then put_file s i (Wf (data (files s i)) a) else s
  | None => s
  end.
(** DeleteFileW: read-only files are not deleted *)
Definition DeleteFileW (ok : bool) (s : vol) (n : nat) : vol * bool :=
  match names s n with
  | Some i => if ok && negb (read_only (files s i)) then (put_name s n None, true) else (s, false)
  | None => (s, false)
  end.
(** MoveFileW: does not replace *)
Definition MoveFileW (ok : bool) (s : vol) (a b : nat) : vol * bool :=
  match names s a with
  | None => (s, false)
  | Some i =>
      if Nat.eqb a b then (s, ok)
      else match names s b with
      | Some _ => (s, false)
      | None => if ok then (put_name (put_name s a None) b (Some i), true) else (s, false)
      end
  end.
(** CopyFileW(..., FALSE): replaces, also copies the attributes; fails for a read-only destination and
    for two names of one file *)
Definition CopyFileW (E : env) (s : vol) (a b : nat) : vol * bool :=
  match names s a with
  | None => (s, false)
  | Some i =>
      match names s b with
      | Some j =>
          if Nat.eqb i j || read_only (files s j) then (s, false)
          else if e_copy E then (put_file s j (files s i), true)
          else match e_junk E with Some d => (put_file s j (Wf d (att (files s j))), false) | None => (s, false) end
      | None =>
          if e_copy E then (put_file (put_name s b (Some (e_new E))) (e_new E) (files s i), true)
          else match e_junk E with Some d => (put_file (put_name s b (Some (e_new E))) (e_new E) (Wf d NORMAL), false) | None => (s, false) end
      end
  end.

(** 697-722 *)
Definition WCopy (E : env) (s : vol) (a b : nat) : vol * bool :=
  match names s a with
  | None => (s, false)
  | Some i =>
      if negb (e_info_src E) then (s, false)
      else if (match names s b with Some j => e_info_dest E && Nat.eqb i j | None => false end) then (s, false)
      else
        let src := att (files s i) in
        let old := match shows s b with Some f => att f | None => NORMAL end in
        let s1 := SetAtt (e_clear E) s b NORMAL in
        let '(s2, r) := CopyFileW E s1 a b in
        (SetAtt (e_restore E) s2 b (if r then src else old), r)
  end.

(** 724-738 *)
Definition WMove (E : env) (s : vol) (a b : nat) : vol * bool :=
  let '(s1, r) := MoveFileW (e_move E) s a b in
  if r then (s1, true)
  else
    let '(s2, r2) := WCopy E s1 a b in
    if r2 then (fst (DeleteFileW (e_delete E) s2 a), true) else (s2, false).

(** 740-748 *)
Definition WDelete (E : env) (s : vol) (n : nat) : vol * bool := DeleteFileW (e_delete E) (SetAtt (e_clear E) s n NORMAL) n.
