(** Model of utf8/utf8_file_dir.cpp (POSIX part): File::Readlink 1666-1671, Dir::Read 1733-1753,
    Dir::Mkdir 1770-1794, Dir::Rmdir 1796-1810, Rmdir_RecurseInternal 1812-1845.
    Definitions only.

    The buffers Dirname and Dirname2 are represented by the text up to the terminator, of
    which they keep at most 8191 bytes.  A directory is read as it was when it was opened;
    permissions and other processes are not modelled.  Path names have no slash at the end. *)
From Verif Require Import Base S_Path S_Tree M_Path.
Open Scope N_scope.

Section Dir.
(** char is signed; the current directory; what the local arrays and the result buffer of
    GetAbsoluteFilename hold at first, for each argument. *)
Variable sgn : bool.
Variable cwd : bytes.
Variables g2 g3 gr : bytes -> bytes.

(** GetAbsoluteFilename(Dirname2, 8192, NULL, d, false): the text, or [None] *)
Definition absname (d : bytes) : res (option bytes) :=
  let* (r, ok) := GetAbsoluteFilename sgn (g2 d) (g3 d) cwd (gr d) None d false in
  if ok then let* s := cstr r in Ok (Some s) else Ok None.

(** 1720-1731 — the entries, [None]: false is returned *)
Definition dir_open (t : tree) (d : bytes) : res (option (list bytes)) :=
  let* o := absname d in
  match o with Some s => Ok (opendir t s) | None => Ok None end.

(** 1821-1839 — the loop over the entries; [deeper]: the recursive call *)
Fixpoint each_entry (deeper : tree -> bytes -> res tree) (d : bytes) (names : list bytes) (t : tree) : res tree :=
  match names with
  | [] => Ok t
  | n :: r =>
      if (N.to_nat 8192 - length d - 1 <? length n + 1)%nat then Ok t
      else if list_eq_dec N.eq_dec n [46] then each_entry deeper d r t
      else if list_eq_dec N.eq_dec n [46; 46] then each_entry deeper d r t
      else
        let d1 := d ++ slash :: n in
        match lstat t d1 with
        | None => each_entry deeper d r t
        | Some KDir =>
            let* t1 := deeper t d1 in
            each_entry deeper d r (fst (rmdir t1 d1))
        | Some _ => each_entry deeper d r (fst (unlink t d1))
        end
  end.

(** 1812-1845 *)
Fixpoint Rmdir_RecurseInternal (fuel : nat) (t : tree) (d : bytes) : res tree :=
  match fuel with
  | O => Fuel
  | S g =>
      if (N.to_nat 8190 <=? length d)%nat then Ok t
      else
        let* o := dir_open t d in
        match o with
        | None => Ok t
        | Some names => each_entry (Rmdir_RecurseInternal g) d names t
        end
  end.

(** 1796-1810 *)
Definition Rmdir (fuel : nat) (t : tree) (name : bytes) (recursive : bool) : res (tree * bool) :=
  let* o := absname name in
  match o with
  | None => Ok (t, false)
  | Some d =>
      let* t1 :=
        (if recursive then
           match lstat t d with
           | None => Ok t
           | Some (KLink _) => Ok t
           | Some _ => Rmdir_RecurseInternal fuel t d
           end
         else Ok t) in
      Ok (rmdir t1 d)
  end.

(** 1782-1790 — from position [x] on *)
Fixpoint mkdirs (n : nat) (t : tree) (d : bytes) (x : nat) : tree :=
  match n with
  | O => t
  | S m => mkdirs m (if nth x d 0 =? slash then fst (mkdir t (firstn x d)) else t) d (S x)
  end.

(** 1780-1781 — position after the first slash *)
Fixpoint after_slash (d : bytes) : nat :=
  match d with [] => O | c :: r => if c =? slash then 1%nat else S (after_slash r) end.

(** 1770-1794 — the mode is not modelled *)
Definition Mkdir (t : tree) (name : bytes) (recursive : bool) : res (tree * bool) :=
  let* o := absname name in
  match o with
  | None => Ok (t, false)
  | Some d =>
      let t1 := if recursive then mkdirs (length d - after_slash d) t d (after_slash d) else t in
      Ok (mkdir t1 d)
  end.
End Dir.

(** 1666-1671 — [b]: Result, its length ResultSize; [link]: the contents of the link *)
Definition Readlink (b link : bytes) : bytes * bool :=
  let w := firstn (length b) link in
  (w ++ skipn (length w) b, (length w <? length b)%nat).

(** 1733-1753 — [e]: the entries not read yet, [None]: closed *)
Definition Dir_Read (e : option (list bytes)) (b : bytes) : res (option (list bytes) * bytes * bool) :=
  match e with
  | None => Ok (None, b, false)
  | Some [] => Ok (None, b, false)
  | Some (n :: r) =>
      if (length b <? length n + 1)%nat then Ok (Some r, b, false)
      else let* b1 := blit b 0 (n ++ [0]) in Ok (Some r, b1, true)
  end.
