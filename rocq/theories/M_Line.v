(** Model of utf8/utf8_file_dir.cpp: File::LineInput 1860-1932 and File::LoadEntireFile
    1934-1962.  Definitions only.

    Memory never runs out; sizes do not reach 2^64, so CurrSize does not wrap around. *)
From Verif Require Import Base S_File M_File.
Open Scope N_scope.

(** memchr: index of the first [c] *)
Fixpoint mchr (c : N) (l : bytes) : option nat :=
  match l with
  | [] => None
  | x :: r => if x =? c then Some O else match mchr c r with Some i => Some (S i) | None => None end
  end.

Section Line.
Variable er : nat -> ev.
(** Contents of memory before it is written, [alt]: AltRealloc is given, SizeHint. *)
Variable junk : nat -> N.
Variable alt : bool.
Variable hint : nat.

(** new char[n] *)
Definition fresh_block (n : nat) : bytes := map junk (seq 0 n).

(** 1871-1886 — [b]: Result, [cs]: CurrSize.  The memcpy of line 1882 takes the new size from
    the old block. *)
Definition more (b : option bytes) (cs : nat) : res (bytes * nat) :=
  match b with
  | None => Ok (fresh_block (cs + 1), cs)
  | Some b =>
      let cs1 := (cs + hint)%nat in
      if alt then Ok (b ++ skipn (length b) (fresh_block (cs1 + 1)), cs1)
      else
        let* x := slice b 0 cs1 in
        let* b1 := blit (fresh_block (cs1 + 1)) 0 x in
        Ok (b1, cs1)
  end.

(** 1869-1900 — Result, CurrSize after the loop *)
Fixpoint line_loop (fuel : nat) (f : file) (d : disk) (b : option bytes) (cs : nat) : res (file * disk * bytes * nat) :=
  match fuel with
  | O => Fuel
  | S g =>
      let* (b1, cs1) := more b cs in
      let* (f1, d1, ok, x) := Read er fuel f d (N.of_nat hint) in
      let* b2 := blit b1 (cs1 - hint) x in
      if (length x <? hint)%nat then Ok (f1, d1, b2, (cs1 - (hint - length x))%nat)
      else
        match mchr 10 (firstn cs1 b2) with
        | Some _ => Ok (f1, d1, b2, cs1)
        | None =>
            match mchr 13 (firstn cs1 b2) with
            | Some i => if (i <? cs1 - 1)%nat then Ok (f1, d1, b2, cs1) else line_loop g f1 d1 (Some b2) cs1
            | None => line_loop g f1 d1 (Some b2) cs1
            end
        end
  end.

(** 1902-1931 — the text returned *)
Definition line_end (f : file) (d : disk) (b : bytes) (cs : nat) : res (file * disk * bytes) :=
  let b1 := map (fun c => if c =? 0 then 32 else c) (firstn cs b) ++ skipn cs b in
  let t := firstn cs b1 in
  let (n, r) :=
    match mchr 10 t, mchr 13 t with
    | Some i, Some j => if (i <? j)%nat then (Some i, None) else if (j <? i - 1)%nat then (None, Some j) else (Some i, Some j)
    | n, r => (n, r)
    end in
  match n, r with
  | Some i, _ =>
      let '(f1, d1, _) := Seek f d Backward (N.of_nat (cs - i - 1)) in
      let* b2 := wr b1 (match r with Some j => j | None => i end) 0 in
      let* s := cstr b2 in Ok (f1, d1, s)
  | None, Some j =>
      let '(f1, d1, _) := Seek f d Backward (N.of_nat (cs - j - 1)) in
      let* b2 := wr b1 j 0 in
      let* s := cstr b2 in Ok (f1, d1, s)
  | None, None =>
      let* b2 := wr b1 cs 0 in
      let* s := cstr b2 in Ok (f, d, s)
  end.

(** 1860-1932 — [None]: NULL *)
Definition LineInput (fuel : nat) (f : file) (d : disk) : res (file * disk * option bytes) :=
  if negb (opened f) || negb (reads f) then Ok (f, d, None)
  else
    let* (f1, d1, b, cs) := line_loop fuel f d None hint in
    let* (f2, d2, s) := line_end f1 d1 b cs in
    Ok (f2, d2, Some s).
End Line.

(** 1934-1962 — [open_ok], [lock_ok] as in [Open]; [c]: the file.  [None]: false is returned. *)
Definition LoadEntireFile (er : nat -> ev) (fuel : nat) (open_ok lock_ok : bool) (c : bytes) : res (option bytes) :=
  let (f, ok) := Open (File false false false 0 0) RDONLY ShareNone open_ok lock_ok (N.of_nat (length c)) in
  if negb ok then Ok None
  else
    let n := max f in
    let* (f1, d1, ok1, x) := Read er fuel f (Disk c 0 0) n in
    if negb ok1 || negb (n =? N.of_nat (length x)) then Ok None else Ok (Some x).
