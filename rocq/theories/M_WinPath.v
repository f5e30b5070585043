(** Model of utf8/utf8_file_dir.cpp (Windows part): File::GetPlatformFilename 228-366,
    GetPlatformFilenameInfo 369-396 and GetAbsoluteFilename 398-507.  Definitions only.

    A C string argument is the list of its bytes, without the terminator; [sgn] tells whether
    char is signed; local arrays start with arbitrary bytes.  The registry (306-338) is the
    function [vol]: the drive letter found for the registry value named by a text, [None] when
    a call fails or nothing matches.  _strnicmp folds the ASCII letters only, as it does in the
    "C" locale. *)
From Verif Require Import Base M_Utf8 M_Path.
Open Scope N_scope.

Definition bsl : N := 92.

(** _strnicmp's folding *)
Definition low (c : N) : N := if (65 <=? c) && (c <=? 90) then c + 32 else c.
Definition same (ci : bool) (a c : N) : bool := if ci then low a =? low c else a =? c.

(** strncmp(Result + x, p, strlen(p)) == 0, or _strnicmp for [ci]; reads up to the first
    difference *)
Fixpoint pre (ci : bool) (b : bytes) (x : nat) (p : bytes) : res bool :=
  match p with
  | [] => Ok true
  | c :: p1 => let* a := rd b x in if same ci a c then pre ci b (S x) p1 else Ok false
  end.

(** the strings of the code *)
Definition s_nt : bytes := [92; 63; 63; 92].                                   (* \??\ *)
Definition s_uni : bytes := [92; 92; 63; 92].                                  (* \\?\ *)
Definition s_dot : bytes := [92; 92; 46; 92].                                  (* \\.\ *)
Definition s_dev : bytes := [92; 92; 63; 92; 68; 101; 118; 105; 99; 101; 92].  (* \\?\Device\ *)
Definition s_unc : bytes := [92; 92; 63; 92; 85; 78; 67; 92].                  (* \\?\UNC\ *)
Definition s_vol : bytes := [86; 111; 108; 117; 109; 101; 123].                (* Volume{ *)
Definition s_NUL : bytes := [78; 85; 76].
Definition s_CON : bytes := [67; 79; 78].
Definition s_AUX : bytes := [65; 85; 88].
Definition s_PRN : bytes := [80; 82; 78].
Definition s_CLOCK : bytes := [67; 76; 79; 67; 75; 36].
Definition s_LPT : bytes := [76; 80; 84].
Definition s_COM : bytes := [67; 79; 77].

(** 238-241 *)
Fixpoint slashes_to_bs (n : nat) (b : bytes) (x : nat) : res bytes :=
  match n with
  | O => Ok b
  | S m => let* c := rd b x in
           let* b1 := (if c =? 47 then wr b x bsl else Ok b) in
           slashes_to_bs m b1 (S x)
  end.

(** _strnicmp(Result + x, s, ...) == 0 for one of the strings, in their order *)
Fixpoint any_pre (b : bytes) (x : nat) (l : list bytes) : res bool :=
  match l with
  | [] => Ok false
  | p :: l1 => let* m := pre true b x p in if m then Ok true else any_pre b x l1
  end.

(** 280-283 and 289-292 — the text Result[last..e) is a reserved device name *)
Definition device (b : bytes) (last e : nat) : res bool :=
  let y2 := (e - last)%nat in
  if (y2 =? 3)%nat then any_pre b last [s_NUL; s_CON; s_AUX; s_PRN]
  else if (y2 =? 6)%nat then pre true b last s_CLOCK
  else if (y2 =? 4)%nat then
    let* m := any_pre b last [s_LPT; s_COM] in
    if m then let* d := rd b (e - 1) in Ok ((48 <=? d) && (d <=? 57)) else Ok false
  else Ok false.

(** 277 — the characters refused *)
Definition wbad (sgn : bool) (c : N) : bool := bad_char sgn c || (c =? 58).

(** 272-287 — from position [x] with LastPos [last]; [None]: false is returned *)
Fixpoint scan (sgn : bool) (n : nat) (b : bytes) (x last : nat) : res (option nat) :=
  match n with
  | O => Ok (Some last)
  | S m =>
      let* c := rd b x in
      if wbad sgn c then Ok None
      else if (c =? 46) || (c =? bsl) then
        let* d := device b last x in
        if d then Ok None else scan sgn m b (S x) (if c =? bsl then S x else last)
      else scan sgn m b (S x) last
  end.

(** strchr(Result + x, '\\'): the position, [None] for NULL *)
Fixpoint find_bs (n : nat) (b : bytes) (x : nat) : res (option nat) :=
  match n with
  | O => UB
  | S m => let* c := rd b x in
           if c =? bsl then Ok (Some x) else if c =? 0 then Ok None else find_bs m b (S x)
  end.

(** 261-270 — the drive letter at [x]: the buffer, where the scan starts, DriveLetter *)
Definition drive (b : bytes) (x : nat) : res (bytes * nat * bool) :=
  let* c := rd b x in
  let* b1 :=
    (if (97 <=? c) && (c <=? 122)
     then let* d := rd b (S x) in if d =? 58 then wr b x (c - 97 + 65) else Ok b
     else Ok b) in
  let* c1 := rd b1 x in
  let* isd := (if (65 <=? c1) && (c1 <=? 90) then let* d := rd b1 (S x) in Ok (d =? 58) else Ok false) in
  if isd then Ok (b1, (x + 2)%nat, true)
  else let* v := pre false b1 0 s_vol in Ok (b1, x, v).

(** 302-345 — resolving \\?\Volume{GUID}; [y] is the length before the prefix was inserted.
    A count below zero wraps around to a huge one. *)
Definition resolve_volume (vol : bytes -> option N) (b : bytes) (y : nat) : res bytes :=
  let* r3 := find_bs (S (length b)) b 4 in
  let* v := pre false b 0 (s_uni ++ s_vol) in
  match v, r3 with
  | true, Some k =>
      let* b1 := wr b 1 63 in
      let* name := cstr b1 in
      let* b2 :=
        match vol name with
        | None => Ok b1
        | Some d =>
            let* b2 := wr b1 4 d in
            let* b3 := wr b2 5 58 in
            if (y + 1 <? k)%nat then UB else memmove b3 6 k (y + 1 - k)
        end in
      wr b2 1 bsl
  | _, _ => Ok b
  end.

(** 294-363 — [uni], [unc], [drv]: UnicodePath, UNCPath, DriveLetter *)
Definition normalise (vol : bytes -> option N) (b : bytes) (y : nat) (uni unc drv : bool) : res (bytes * bool) :=
  if drv then
    if uni then let* b1 := resolve_volume vol b y in Ok (b1, true)
    else if (length b <? y + 4)%nat then Ok (b, false)
    else
      let* b1 := memmove b 4 0 (y + 1) in
      let* b2 := blit b1 0 s_uni in
      let* b3 := resolve_volume vol b2 y in
      Ok (b3, true)
  else if unc then Ok (b, true)
  else if uni then
    if (length b <? y + 4)%nat then Ok (b, false)
    else
      let* b1 := memmove b 8 4 (y + 1 - 4) in
      let* b2 := blit b1 4 [85; 78; 67; 92] in
      Ok (b2, true)
  else
    let* c0 := rd b 0 in
    let* net := (if c0 =? bsl then let* c1 := rd b 1 in Ok (c1 =? bsl) else Ok false) in
    if net then
      if (length b <? y + 6)%nat then Ok (b, false)
      else
        let* b1 := memmove b 7 1 (y + 1 - 1) in
        let* b2 := blit b1 1 [92; 63; 92; 85; 78; 67] in
        Ok (b2, true)
    else Ok (b, true).

(** 243-363 — after the slashes were turned *)
Definition gpf_rest (sgn : bool) (vol : bytes -> option N) (unsafe : bool) (b : bytes) (y : nat) : res (bytes * bool) :=
  let* nt := pre false b 0 s_nt in
  let* b1 := (if nt then wr b 1 bsl else Ok b) in
  let* d1 := pre true b1 0 s_dev in
  let* d2 := (if d1 then Ok true else pre false b1 0 s_dot) in
  if d2 then Ok (b1, unsafe)
  else
    let* unc := pre true b1 0 s_unc in
    let* uni := (if unc then Ok true else pre false b1 0 s_uni) in
    let x := if unc then 8%nat else if uni then 4%nat else 0%nat in
    let* (b2, x2, drv) := drive b1 x in
    let* l := scan sgn (y - x2) b2 x2 0 in
    match l with
    | None => Ok (b2, false)
    | Some last =>
        let* dv := device b2 last y in
        if dv then Ok (b2, false) else normalise vol b2 y uni unc drv
    end.

(** 228-366 — [b]: Result, its length ResultSize *)
Definition WGetPlatformFilename (sgn : bool) (vol : bytes -> option N) (b : bytes) (name : bytes) (unsafe : bool) : res (bytes * bool) :=
  let y := length name in
  if (length b <? y + 1)%nat then Ok (b, false)
  else
    let* (d, _, _) := ConvertToUTF8 Wd1 (name ++ [0]) (Some b) (length b) in
    match d with
    | None => UB
    | Some b1 =>
        let* s := cstr b1 in
        if (length s =? 0)%nat || negb (if list_eq_dec N.eq_dec s name then true else false) then Ok (b1, false)
        else
          let* b2 := slashes_to_bs y b1 0 in
          gpf_rest sgn vol unsafe b2 y
    end.

(** 375-377 — the same comparisons on a whole text *)
Fixpoint starts (ci : bool) (p f : bytes) : bool :=
  match p, f with
  | [], _ => true
  | c :: p1, a :: f1 => same ci a c && starts ci p1 f1
  | _ :: _, [] => false
  end.

(** 382 *)
Fixpoint to_bs (n : nat) (f : bytes) (x : nat) : nat :=
  match n with
  | O => x
  | S m => if nth x f 0 =? bsl then x else to_bs m f (S x)
  end.
(** 386 *)
Fixpoint back_to_bs (f : bytes) (lo x : nat) : nat :=
  match x with
  | O => O
  | S x' => if (lo <? x)%nat then (if nth x' f 0 =? bsl then x else back_to_bs f lo x') else x
  end.

Record winfo := { StartVolume : nat; StartPath : nat; StartFilename : nat; StartExtension : nat; StartLastExtension : nat }.

(** 369-396 — Length is the length of the string *)
Definition WGetPlatformFilenameInfo (f : bytes) : winfo :=
  let y := length f in
  let v := if starts true s_unc f then 8%nat else if starts false s_uni f then 4%nat else 0%nat in
  let p := if (v =? 0)%nat then 0%nat else to_bs (y - v) f v in
  let x := back_to_bs f p y in
  let e := to_dot (y - x) f x in
  {| StartVolume := v; StartPath := p; StartFilename := x; StartExtension := e;
     StartLastExtension := last_dot (y - e) f e e |}.

(** 407-414 — the characters of Filename3 after removing "\.\" and a final "\.".  The loop
    stores behind the place where it reads, so the rest of the string is as it was. *)
Fixpoint wremove_dots (s : bytes) : bytes :=
  match s with
  | [] => []
  | c :: s1 =>
      match s1 with
      | [] => [c]
      | a :: t =>
          match t with
          | [] => if (c =? bsl) && (a =? dot) then [c] else c :: wremove_dots s1
          | b :: _ => if (c =? bsl) && (a =? dot) && (b =? bsl) then wremove_dots t else c :: wremove_dots s1
          end
      end
  end.

(** 415-420 *)
Definition wclose_dotdot (s : bytes) : option bytes :=
  let x := length s in
  if (3 <=? x)%nat && (nth (x - 3) s 0 =? bsl) && (nth (x - 2) s 0 =? dot) && (nth (x - 1) s 0 =? dot)
  then (if (LIM <=? x)%nat then None else Some (s ++ [bsl]))
  else Some s.

(** 468-472 — dropping the last component of Filename2[sp..len) *)
Fixpoint wdrop_bs (sp : nat) (b : bytes) (len : nat) : nat :=
  match len with
  | O => O
  | S l => if (sp <? len)%nat then (if nth l b 0 =? bsl then wdrop_bs sp b l else len) else len
  end.
Fixpoint wdrop_name (sp : nat) (b : bytes) (len : nat) : nat :=
  match len with
  | O => O
  | S l => if (sp <? len)%nat then (if nth l b 0 =? bsl then len else wdrop_name sp b l) else len
  end.

(** 463-479 — [b], [len]: Filename2 and FileInfo2.Length; [r]: the rest of Filename3 *)
Fixpoint wparse (sp : nat) (r : bytes) (b : bytes) (len : nat) : res (option (bytes * nat)) :=
  match r with
  | [] => Ok (Some (b, len))
  | c :: r1 =>
      let put :=
        if (LIM <=? len)%nat then Ok None
        else let* b1 := wr b len c in wparse sp r1 b1 (S len) in
      match r1 with
      | a :: t2 =>
          match t2 with
          | a2 :: t3 =>
              match t3 with
              | a3 :: _ =>
                  if (c =? bsl) && (a =? dot) && (a2 =? dot) && (a3 =? bsl)
                  then wparse sp t3 b (wdrop_name sp b (wdrop_bs sp b len))
                  else put
              | [] => put
              end
          | [] => put
          end
      | [] => put
      end
  end.

(** 488 *)
Fixpoint wskip (fuel : nat) (b : bytes) (x : nat) : res nat :=
  match fuel with
  | O => Fuel
  | S g =>
      let* c := rd b x in
      if c =? bsl then
        let* c2 := rd b (S x) in
        if c2 =? bsl then wskip g b (S x) else Ok x
      else Ok x
  end.

(** 484-491 *)
Fixpoint wcopy_out (fuel : nat) (b : bytes) (len x : nat) (result : bytes) (x2 : nat) : res (bytes * nat) :=
  match fuel with
  | O => Fuel
  | S g =>
      if (x2 <? length result)%nat && (x <? len)%nat then
        let* x' := wskip (S (length b)) b x in
        let* c := rd b x' in
        let* r1 := wr result x2 c in
        wcopy_out g b len (S x') r1 (S x2)
      else Ok (result, x2)
  end.

(** 498-506 *)
Fixpoint wsane (n : nat) (r : bytes) (x : nat) : res bool :=
  match n with
  | O => Ok true
  | S m =>
      let* c := rd r x in
      if c =? bsl then
        let* c1 := rd r (x + 1) in
        if c1 =? dot then
          let* c2 := rd r (x + 2) in
          if c2 =? bsl then Ok false
          else if c2 =? dot then
            let* c3 := rd r (x + 3) in
            if c3 =? bsl then Ok false else wsane m r (S x)
          else wsane m r (S x)
        else wsane m r (S x)
      else wsane m r (S x)
  end.

(** 481-506 — the volume (482) is the first min(ResultSize, StartPath) bytes *)
Definition wfinish (sp : nat) (b : bytes) (len : nat) (result : bytes) (trailing : bool) : res (bytes * bool) :=
  let v := Nat.min (length result) sp in
  let* vb := slice b 0 v in
  let* r0 := blit result 0 vb in
  let* (r1, x2) := wcopy_out (S (length b)) b len v r0 v in
  let* (r2, x3) :=
    (if trailing && (0 <? x2)%nat then
       let* c := rd r1 (x2 - 1) in
       if negb (c =? bsl) && (x2 <? length r1)%nat then let* r := wr r1 x2 bsl in Ok (r, S x2) else Ok (r1, x2)
     else Ok (r1, x2)) in
  let* x4 :=
    (if negb trailing && (0 <? x3)%nat then
       let* c := rd r2 (x3 - 1) in Ok (if c =? bsl then (x3 - 1)%nat else x3)
     else Ok x3) in
  if (length r2 <=? x4)%nat then Ok (r2, false)
  else
    let* r3 := wr r2 x4 0 in
    let* ok := wsane x4 r3 0 in
    Ok (r3, ok).

(** 447-479 and on — [b2]: Filename2 once the volume or the base directory is in it;
    [f3], [sp3]: the text of Filename3 and FileInfo3.StartPath *)
Definition wjoin (b2 : bytes) (f3 : bytes) (sp3 : nat) (result : bytes) (trailing : bool) : res (bytes * bool) :=
  let* d := cstr b2 in
  let y := length d in
  let open := (0 <? y)%nat && negb (nth (y - 1) d 0 =? bsl) in
  if open && (LIM <=? y)%nat then Ok (result, false)
  else
    let* b2' := (if open then blit b2 y [bsl; 0] else Ok b2) in
    let d' := if open then d ++ [bsl] else d in
    let sp := StartPath (WGetPlatformFilenameInfo d') in
    let len := if nth sp3 f3 0 =? bsl then sp else length d' in
    if (LIM <=? len)%nat then Ok (result, false)
    else
      let* (b4, len4) := (if (sp =? len)%nat then let* b' := wr b2' len bsl in Ok (b', S len) else Ok (b2', len)) in
      let* p := wparse sp (skipn sp3 f3) b4 len4 in
      match p with
      | None => Ok (result, false)
      | Some (b5, len5) => wfinish sp b5 len5 result trailing
      end.

(** 398-507 — [base]: BaseDir, [None] for NULL; [cwd]: what Dir::Getcwd puts into the buffer
    (without its terminator) or [None] when it fails *)
Definition WGetAbsoluteFilename (sgn : bool) (vol : bytes -> option N) (g2 g3 : bytes) (cwd : option bytes)
    (result : bytes) (base : option bytes) (name : bytes) (trailing : bool) : res (bytes * bool) :=
  let* (b3, ok) := WGetPlatformFilename sgn vol g3 name false in
  if negb ok then Ok (result, false)
  else
    let* s := cstr b3 in
    match wclose_dotdot (wremove_dots s) with
    | None => Ok (result, false)
    | Some f3 =>
        let i3 := WGetPlatformFilenameInfo f3 in
        let sp3 := StartPath i3 in
        if (0 <? StartVolume i3)%nat then
          let* b2 := blit g2 0 (firstn sp3 f3 ++ [0]) in
          wjoin b2 f3 sp3 result trailing
        else
          let* (b2, ok2) :=
            match base with
            | Some d => WGetPlatformFilename sgn vol g2 d false
            | None => match cwd with
                      | Some c => if (length c + 1 <=? length g2)%nat then let* b := blit g2 0 (c ++ [0]) in Ok (b, true) else Ok (g2, false)
                      | None => Ok (g2, false)
                      end
            end in
          if negb ok2 then Ok (result, false)
          else
            let* u := pre false b2 0 s_uni in
            if negb u then Ok (result, false) else wjoin b2 f3 sp3 result trailing
    end.
