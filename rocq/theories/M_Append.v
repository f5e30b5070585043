(** Model of files opened with O_APPEND, utf8/utf8_file_dir.cpp: File::Open 108-130 (Windows) and
    1245-1276 (POSIX), Write 181-194 and 1328-1349.  Definitions only.  Files, descriptors, Seek,
    Read and the Windows Write are those of M_File and M_WinFile.

    Others may append to the file between the calls of the object, not during one. *)
From Verif Require Import Base S_File M_File M_WinFile S_Append.
Open Scope N_scope.

Section Env.
Variables er ew : nat -> ev.

(** write(2) on a descriptor with O_APPEND: the offset is set to the end first, if anything is written. *)
Definition sys_append (d : disk) (b : bytes) : disk * option (option nat) :=
  match ew (used d) with
  | Part _ => sys_write ew (Disk (data d) (N.of_nat (length (data d))) (used d)) b
  | _ => sys_write ew d b
  end.

(** 1335-1344, as write_loop in M_File *)
Fixpoint append_loop (fuel : nat) (d : disk) (b : bytes) (i left : nat) : res (disk * bool * nat) :=
  match fuel with
  | O => Fuel
  | S g => match sys_append d (firstn left (skipn i b)) with
      | (d1, None) => Ok (d1, false, i)
      | (d1, Some None) => match i with O => UB | S j => append_loop g d1 b j (S left) end
      | (d1, Some (Some n)) =>
          if (left - n =? 0)%nat then Ok (d1, true, (i + n)%nat)
          else append_loop g d1 b (i + n) (left - n)
      end
  end.

(** 1328-1349, as Write in M_File *)
Definition AWrite (fuel : nat) (f : file) (d : disk) (b : bytes) : res (file * disk * bool * N) :=
  if negb (opened f) || negb (writes f) then Ok (f, d, false, 0)
  else if (length b =? 0)%nat then Ok (f, d, true, 0)
  else
    let* (d1, ok, n) := append_loop fuel d b 0 (length b) in
    if ok then
      let c := w64 (curr f + N.of_nat n) in
      Ok (File true (reads f) (writes f) c (if max f <? c then c else max f), d1, true, N.of_nat n)
    else Ok (f, d1, false, N.of_nat n).

Definition theirs (d : disk) (x : bytes) : disk := Disk (data d ++ x) (off d) (used d).

(** One step, POSIX *)
Definition astep (fuel : nat) (f : file) (d : disk) (o : aop) : res (file * disk * fans) :=
  match o with
  | Theirs x => Ok (f, theirs d x, ADone true)
  | Mine (FWrite x) => let* (f1, d1, b, n) := AWrite fuel f d x in Ok (f1, d1, AWrote b n)
  | Mine p => fexec er ew fuel f d p
  end.
Fixpoint arun (fuel : nat) (f : file) (d : disk) (l : list aop) : res (file * disk * list fans) :=
  match l with
  | [] => Ok (f, d, [])
  | o :: r =>
      let* (f1, d1, a) := astep fuel f d o in
      let* (f2, d2, as_) := arun fuel f1 d1 r in Ok (f2, d2, a :: as_)
  end.

(** One step, Windows: O_APPEND is not passed to the system. *)
Definition wstep (f : file) (d : disk) (o : aop) : file * disk * fans :=
  match o with
  | Theirs x => (f, theirs d x, ADone true)
  | Mine p => wexec er ew f d p
  end.
Fixpoint wrun (f : file) (d : disk) (l : list aop) : file * disk * list fans :=
  match l with
  | [] => (f, d, [])
  | o :: r => let '(f1, d1, a) := wstep f d o in let '(f2, d2, as_) := wrun f1 d1 r in (f2, d2, a :: as_)
  end.
End Env.

(** A file with the bytes [c] just opened for appending; [r]: also for reading (O_RDWR).  POSIX
    (1272-1274): the descriptor is at 0 until something is written. *)
Definition aopen (r : bool) (c : bytes) : file * disk :=
  (File true r true 0 (N.of_nat (length c)), Disk c 0 0).
(** Windows (119-123): Seek(SeekEnd, 0) *)
Definition wopen (r : bool) (c : bytes) : file * disk :=
  let '(f, d, _) := Seek (File true r true 0 (N.of_nat (length c))) (Disk c 0 0) FromEnd 0 in (f, d).
