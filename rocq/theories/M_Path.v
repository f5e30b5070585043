(** Model of utf8/utf8_file_dir.cpp (POSIX part): File::GetPlatformFilename 1382-1401,
    GetPlatformFilenameInfo 1403-1422, GetAbsoluteFilename 1424-1531 and Dir::Getcwd 1765-1768.
    Definitions only.

    A C string argument is the list of its bytes, without the terminator.  [sgn] tells whether
    char is signed (as on x86) or not.  Local arrays start with arbitrary bytes [g2], [g3]. *)
From Verif Require Import Base M_Utf8.
Open Scope N_scope.

Definition slash : N := 47.
Definition dot : N := 46.

(** The last index of the local arrays (1426). *)
Definition LIM : nat := N.to_nat 8191.

(** 1395 — the characters refused; a signed char compares below 0x20 from 0x80 on. *)
Definition bad_char (sgn : bool) (c : N) : bool :=
  (c <? 0x20) || (sgn && (0x80 <=? c)) || (c =? 0x7F) || (c =? 42) || (c =? 63) || (c =? 34) || (c =? 60) || (c =? 62) || (c =? 124).

(** 1391-1398 — the loop, from position [x]; stops at the first refused character, leaving the
    buffer as it is then. *)
Fixpoint gpf_loop (sgn : bool) (n : nat) (b : bytes) (x : nat) : res (bytes * bool) :=
  match n with
  | O => Ok (b, true)
  | S m =>
      let* c := rd b x in
      if bad_char sgn c then Ok (b, false)
      else
        let* b1 := (if c =? 92 then wr b x slash else Ok b) in
        gpf_loop sgn m b1 (S x)
  end.

(** 1382-1401 — [b]: Result, its length ResultSize *)
Definition GetPlatformFilename (sgn : bool) (b : bytes) (name : bytes) : res (bytes * bool) :=
  let y := length name in
  if (length b <? y + 1)%nat then Ok (b, false)
  else
    let* (d, _, _) := ConvertToUTF8 Wd1 (name ++ [0]) (Some b) (length b) in
    match d with
    | None => UB
    | Some b1 =>
        let* s := cstr b1 in
        if (length s =? 0)%nat || negb (if list_eq_dec N.eq_dec s name then true else false) then Ok (b1, false)
        else gpf_loop sgn y b1 0
    end.

(** 1410, 1413-1414, 1416-1419 *)
Fixpoint back_to_slash (f : bytes) (x : nat) : nat :=
  match x with
  | O => O
  | S x' => if nth x' f 0 =? slash then x else back_to_slash f x'
  end.
Fixpoint to_dot (n : nat) (f : bytes) (x : nat) : nat :=
  match n with
  | O => x
  | S m => if nth x f 0 =? dot then x else to_dot m f (S x)
  end.
Fixpoint last_dot (n : nat) (f : bytes) (x last : nat) : nat :=
  match n with
  | O => last
  | S m => last_dot m f (S x) (if nth x f 0 =? dot then x else last)
  end.

(** 1403-1422 — StartFilename, StartExtension, StartLastExtension; Length is the length of the
    string, StartVolume and StartPath are 0. *)
Definition GetPlatformFilenameInfo (f : bytes) : nat * nat * nat :=
  let y := length f in
  let x := back_to_slash f y in
  let e := to_dot (y - x) f x in
  (x, e, last_dot (y - e) f e e).

(** 1433-1440 — the characters of Filename3 after removing "/./" and a final "/.".  The loop
    stores behind the place where it reads, so the rest of the string is as it was. *)
Fixpoint remove_dots (s : bytes) : bytes :=
  match s with
  | [] => []
  | c :: s1 =>
      match s1 with
      | [] => [c]
      | a :: t =>
          match t with
          | [] => if (c =? slash) && (a =? dot) then [c] else c :: remove_dots s1
          | b :: _ => if (c =? slash) && (a =? dot) && (b =? slash) then remove_dots t else c :: remove_dots s1
          end
      end
  end.

(** 1441-1446 — [None]: the string would be too long *)
Definition close_dotdot (s : bytes) : option bytes :=
  let x := length s in
  if (3 <=? x)%nat && (nth (x - 3) s 0 =? slash) && (nth (x - 2) s 0 =? dot) && (nth (x - 1) s 0 =? dot)
  then (if (LIM <=? x)%nat then None else Some (s ++ [slash]))
  else Some s.

(** 1497-1498 — dropping the last component of Filename2[0..len) *)
Fixpoint drop_slashes (b : bytes) (len : nat) : nat :=
  match len with O => O | S l => if nth l b 0 =? slash then drop_slashes b l else len end.
Fixpoint drop_name (b : bytes) (len : nat) : nat :=
  match len with O => O | S l => if nth l b 0 =? slash then len else drop_name b l end.

(** 1490-1506 — [b], [len]: Filename2 and FileInfo2.Length; [r]: the rest of Filename3.
    [None]: false is returned. *)
Fixpoint parse (r : bytes) (b : bytes) (len : nat) : res (option (bytes * nat)) :=
  match r with
  | [] => Ok (Some (b, len))
  | c :: r1 =>
      let put :=
        if (LIM <=? len)%nat then Ok None
        else let* b1 := wr b len c in parse r1 b1 (S len) in
      match r1 with
      | a :: t2 =>
          match t2 with
          | a2 :: t3 =>
              match t3 with
              | a3 :: _ =>
                  if (c =? slash) && (a =? dot) && (a2 =? dot) && (a3 =? slash)
                  then parse t3 b (drop_name b (drop_slashes b len))
                  else put
              | [] => put
              end
          | [] => put
          end
      | [] => put
      end
  end.

(** 1513 — from position [x], skipping a slash followed by another one *)
Fixpoint skip_slashes (fuel : nat) (b : bytes) (x : nat) : res nat :=
  match fuel with
  | O => Fuel
  | S g =>
      let* c := rd b x in
      if c =? slash then
        let* c2 := rd b (S x) in
        if c2 =? slash then skip_slashes g b (S x) else Ok x
      else Ok x
  end.

(** 1511-1516 — the result and x2 *)
Fixpoint copy_out (fuel : nat) (b : bytes) (len x : nat) (result : bytes) (x2 : nat) : res (bytes * nat) :=
  match fuel with
  | O => Fuel
  | S g =>
      if (x2 <? length result)%nat && (x <? len)%nat then
        let* x' := skip_slashes (S (length b)) b x in
        let* c := rd b x' in
        let* r1 := wr result x2 c in
        copy_out g b len (S x') r1 (S x2)
      else Ok (result, x2)
  end.

(** 1523-1530 — [true]: no "/./" or "/../"; [x2] is the position of the terminator *)
Fixpoint sane (n : nat) (r : bytes) (x : nat) : res bool :=
  match n with
  | O => Ok true
  | S m =>
      let* c := rd r x in
      if c =? slash then
        let* c1 := rd r (x + 1) in
        if c1 =? dot then
          let* c2 := rd r (x + 2) in
          if c2 =? slash then Ok false
          else if c2 =? dot then
            let* c3 := rd r (x + 3) in
            if c3 =? slash then Ok false else sane m r (S x)
          else sane m r (S x)
        else sane m r (S x)
      else sane m r (S x)
  end.

(** 1765-1768 — getcwd(3): the current directory with its terminator, if it fits *)
Definition Getcwd (b cwd : bytes) : res (bytes * bool) :=
  if (length cwd + 1 <=? length b)%nat then let* b1 := blit b 0 (cwd ++ [0]) in Ok (b1, true) else Ok (b, false).

(** 1509-1535 *)
Definition finish (b : bytes) (len : nat) (result : bytes) (trailing : bool) : res (bytes * bool) :=
  let* (r1, x2) := copy_out (S (length b)) b len 0 result 0 in
  let* (r2, x3) :=
    (if trailing && (0 <? x2)%nat then
       let* c := rd r1 (x2 - 1) in
       if negb (c =? slash) && (x2 <? length r1)%nat then let* r := wr r1 x2 slash in Ok (r, S x2) else Ok (r1, x2)
     else Ok (r1, x2)) in
  let* x4 :=
    (if negb trailing && (0 <? x3)%nat then
       let* c := rd r2 (x3 - 1) in Ok (if c =? slash then (x3 - 1)%nat else x3)
     else Ok x3) in
  if (length r2 <=? x4)%nat then Ok (r2, false)
  else
    let* r3 := wr r2 x4 0 in
    let* ok := sane x4 r3 0 in
    Ok (r3, ok).

(** 1424-1535 — [base]: BaseDir, [None] for NULL; [result]: Result, its length ResultSize.
    FileInfo3.StartVolume is always 0, so lines 1454-1457 never run. *)
Definition GetAbsoluteFilename (sgn : bool) (g2 g3 cwd : bytes) (result : bytes) (base : option bytes) (name : bytes) (trailing : bool)
    : res (bytes * bool) :=
  let* (b3, ok) := GetPlatformFilename sgn g3 name in
  if negb ok then Ok (result, false)
  else
    let* s := cstr b3 in
    match close_dotdot (remove_dots s) with
    | None => Ok (result, false)
    | Some f3 =>
        let* (b2, ok2) := match base with Some d => GetPlatformFilename sgn g2 d | None => Getcwd g2 cwd end in
        if negb ok2 then Ok (result, false)
        else
          let* c0 := rd b2 0 in
          if negb (c0 =? slash) then Ok (result, false)
          else
            let* d := cstr b2 in
            let y := length d in
            if (0 <? y)%nat && negb (nth (y - 1) d 0 =? slash) && (LIM <=? y)%nat then Ok (result, false)
            else
              let* (b2', y') :=
                (if (0 <? y)%nat && negb (nth (y - 1) d 0 =? slash)
                 then let* b' := blit b2 y [slash; 0] in Ok (b', S y) else Ok (b2, y)) in
              let len := match f3 with c :: _ => if c =? slash then O else y' | [] => y' end in
              if (LIM <=? len)%nat then Ok (result, false)
              else
                let* (b4, len4) := (if (len =? 0)%nat then let* b' := wr b2' 0 slash in Ok (b', 1%nat) else Ok (b2', len)) in
                let* p := parse f3 b4 len4 in
                match p with
                | None => Ok (result, false)
                | Some (b5, len5) => finish b5 len5 result trailing
                end
    end.
