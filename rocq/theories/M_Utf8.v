(** Model of utf8/utf8_util.cpp (class UTF8::Util).  Definitions only. *)
From Verif Require Import Base.
Open Scope N_scope.

(** A destination: [None] is a NULL pointer (counting pass), [Some b] a buffer of units. *)
Definition dst := option (list N).

(** utf8_util.cpp:392-395 — IsCombiningCodePoint; the same test is inlined at 75, 218, 355, 369. *)
Definition is_combining (cp : N) : bool :=
  ((0x300 <=? cp) && (cp <=? 0x36F)) || ((0x1DC0 <=? cp) && (cp <=? 0x1DFF))
  || ((0x20D0 <=? cp) && (cp <=? 0x20FF)) || ((0xFE20 <=? cp) && (cp <=? 0xFE2F)).

(** utf8_util.cpp:72 (and 215) — surrogates, noncharacters. *)
Definition is_excluded (cp : N) : bool :=
  ((0xD800 <=? cp) && (cp <=? 0xDFFF)) || ((0xFDD0 <=? cp) && (cp <=? 0xFDEF))
  || (N.land cp 0xFFFE =? 0xFFFE).

(** Store the units [us] one after the other at [d[size..]], each store being
    [DestData[DestDataSize++] = ...]. *)
Fixpoint put_all (b : list N) (size : nat) (us : list N) : res (list N) :=
  match us with
  | [] => Ok b
  | u :: r => let* b1 := wr b size u in put_all b1 (S size) r
  end.

(** The pattern of lines 79-81, 87-93, 99-106, 112-120, 226-237, 243-245: count when the
    destination is NULL, refuse when fewer than [length us] units are left, else store. *)
Definition emit (us : list N) (d : dst) (size max : nat) : res (bool * dst * nat) :=
  match d with
  | None => Ok (true, None, (size + length us)%nat)
  | Some b =>
      if (max <=? size + (length us - 1))%nat then Ok (false, d, size)
      else let* b' := put_all b size us in Ok (true, Some b', (size + length us)%nat)
  end.

(** Conversion to uint8_t of the stored values. *)
Definition u8 (n : N) : N := n mod 256.
Definition u16 (n : N) : N := n mod 65536.

(** utf8_util.cpp:67-126 — AppendUTF8CodePoint. *)
Definition append8 (cp : N) (d : dst) (size max : nat) : res (bool * dst * nat) :=
  if is_excluded cp then Ok (false, d, size)
  else if ((size =? 0)%nat && is_combining cp)%bool then Ok (false, d, size)
  else if cp <=? 0x7F then emit [u8 cp] d size max
  else if cp <=? 0x7FF then
    emit [u8 (N.lor 0xC0 (N.shiftr cp 6)); u8 (N.lor 0x80 (N.land cp 0x3F))] d size max
  else if cp <=? 0xFFFF then
    emit [u8 (N.lor 0xE0 (N.shiftr cp 12)); u8 (N.lor 0x80 (N.land (N.shiftr cp 6) 0x3F));
          u8 (N.lor 0x80 (N.land cp 0x3F))] d size max
  else if cp <=? 0x10FFFF then
    emit [u8 (N.lor 0xF0 (N.shiftr cp 18)); u8 (N.lor 0x80 (N.land (N.shiftr cp 12) 0x3F));
          u8 (N.lor 0x80 (N.land (N.shiftr cp 6) 0x3F)); u8 (N.lor 0x80 (N.land cp 0x3F))] d size max
  else Ok (false, d, size).

(** One step of the byte decoders (lines 142-167 and 262-287; the two are the same text):
    looks at the bytes from the current position.  Result: the code point, if a sequence is
    recognised, and the number of bytes consumed.  Line 149 etc.: [x + k < SrcDataSize]
    means that at least [k+1] bytes are left. *)
Definition is_cont (b : N) : bool := N.land b 0xC0 =? 0x80.

Definition dec8 (src : list N) : option N * nat :=
  match src with
  | [] => (None, 1%nat)
  | a :: r =>
      if a <=? 0x7F then (Some a, 1%nat)
      else
        let two := match r with
                   | b :: _ => (N.land a 0xE0 =? 0xC0) && is_cont b
                   | _ => false end in
        let three := match r with
                   | b :: c :: _ => (N.land a 0xF0 =? 0xE0) && is_cont b && is_cont c
                   | _ => false end in
        let four := match r with
                   | b :: c :: d :: _ => (N.land a 0xF8 =? 0xF0) && is_cont b && is_cont c && is_cont d
                   | _ => false end in
        let nb k := nth k src 0 in
        if two then (Some (N.lor (N.shiftl (N.land a 0x1F) 6) (N.land (nb 1%nat) 0x3F)), 2%nat)
        else if three then
          (Some (N.lor (N.lor (N.shiftl (N.land a 0x0F) 12) (N.shiftl (N.land (nb 1%nat) 0x3F) 6))
                       (N.land (nb 2%nat) 0x3F)), 3%nat)
        else if four then
          (Some (N.lor (N.lor (N.lor (N.shiftl (N.land a 0x07) 18)
                                     (N.shiftl (N.land (nb 1%nat) 0x3F) 12))
                              (N.shiftl (N.land (nb 2%nat) 0x3F) 6))
                       (N.land (nb 3%nat) 0x3F)), 4%nat)
        else (None, 1%nat)
  end.

(** utf8_util.cpp:135-169 — ConvertToUTF8, SrcWidth 1.  [src] is the rest of the input, [x] the
    position reached, [lp] the value of *LastPos.  Lines 146-153: one- and two-byte sequences
    set LastPos after advancing; line 158: three-byte sequences do not set it; line 164:
    four-byte sequences set it before advancing. *)
Fixpoint to8_1 (fuel : nat) (src : list N) (x : nat) (d : dst) (size max : nat) (lp : option nat)
  : res (dst * nat * option nat) :=
  match fuel with
  | O => Fuel
  | S f =>
      match src with
      | [] => Ok (d, size, lp)
      | _ =>
          match dec8 src with
          | (Some cp, n) =>
              let* r := append8 cp d size max in
              let '(ok, d', size') := r in
              let lp' := if ok then
                           (if (n =? 3)%nat then lp
                            else if (n =? 4)%nat then Some x else Some (x + n)%nat)
                         else lp in
              to8_1 f (skipn n src) (x + n)%nat d' size' max lp'
          | (None, n) => to8_1 f (skipn n src) (x + n)%nat d size max lp
          end
      end
  end.

(** utf8_util.cpp:170-193 — SrcWidth 2.  A high surrogate always consumes the following unit
    (line 184), whether or not it is a low surrogate. *)
Fixpoint to8_2 (src : list N) (x : nat) (d : dst) (size max : nat) (lp : option nat)
  : res (dst * nat * option nat) :=
  match src with
  | [] => Ok (d, size, lp)
  | a :: r =>
      if ((a <? 0xD800) || (0xDBFF <? a))%bool then
        let* q := append8 a d size max in
        let '(ok, d', size') := q in
        to8_2 r (S x) d' size' max (if ok then Some x else lp)
      else
        match r with
        | [] => Ok (d, size, lp)
        | b :: r' =>
            if ((0xDC00 <=? b) && (b <=? 0xDFFF))%bool then
              let cp := N.lor (N.shiftl (a - 0xD800) 10) (b - 0xDC00) + 0x10000 in
              let* q := append8 cp d size max in
              let '(ok, d', size') := q in
              to8_2 r' (S (S x)) d' size' max (if ok then Some (S x) else lp)
            else to8_2 r' (S (S x)) d size max lp
        end
  end.

(** utf8_util.cpp:194-204 — SrcWidth 4. *)
Fixpoint to8_4 (src : list N) (x : nat) (d : dst) (size max : nat) (lp : option nat)
  : res (dst * nat * option nat) :=
  match src with
  | [] => Ok (d, size, lp)
  | a :: r =>
      let* q := append8 a d size max in
      let '(ok, d', size') := q in
      to8_4 r (S x) d' size' max (if ok then Some x else lp)
  end.

Inductive width := Wd1 | Wd2 | Wd4.

(** utf8_util.cpp:128-205 — ConvertToUTF8 (buffer version): the destination after the call, the
    new DestDataSize and *LastPos.  [max] is DestDataSize on entry. *)
Definition ConvertToUTF8 (w : width) (src : list N) (d : dst) (max : nat)
  : res (dst * nat * option nat) :=
  match w with
  | Wd1 => to8_1 (S (length src)) src 0 d 0 max None
  | Wd2 => to8_2 src 0 d 0 max None
  | Wd4 => to8_4 src 0 d 0 max None
  end.

(** utf8_util.cpp:10-49 — the allocating version for NUL-terminated input [src] (terminator
    included): count, allocate, convert.  The first pass gets an uninitialised size, which it
    does not use because the destination is NULL. *)
Definition ConvertToUTF8_alloc (w : width) (src : list N) : res (list N * nat) :=
  let* r := ConvertToUTF8 w src None 0 in
  let '(_, y, _) := r in
  let* r2 := ConvertToUTF8 w src (Some (repeat 0 y)) y in
  match r2 with
  | (Some b, n, _) => Ok (b, n)
  | (None, _, _) => UB
  end.

(** utf8_util.cpp:207-249 — AppendUTFCodePoint. *)
Definition appendW (w : width) (cp : N) (d : dst) (size max : nat) : res (bool * dst * nat) :=
  match w with
  | Wd1 => append8 cp d size max
  | _ =>
      if (is_excluded cp || (0x10FFFF <? cp))%bool then Ok (false, d, size)
      else if ((size =? 0)%nat && is_combining cp)%bool then Ok (false, d, size)
      else match w with
      | Wd2 =>
          if 0xFFFF <? cp then
            let c := cp - 0x10000 in
            emit [u16 (N.land (N.shiftr c 10) 0x3FF + 0xD800); u16 (N.land c 0x3FF + 0xDC00)] d size max
          else emit [u16 cp] d size max
      | _ => emit [cp] d size max
      end
  end.

(** utf8_util.cpp:251-289 — ConvertFromUTF8 (buffer version).  [max] is DestDataSize on entry;
    the loop condition on line 260 contains it. *)
Fixpoint from8 (fuel : nat) (w : width) (src : list N) (d : dst) (size max : nat) : res (dst * nat) :=
  match fuel with
  | O => Fuel
  | S f =>
      match src with
      | [] => Ok (d, size)
      | _ =>
          if (max =? 0)%nat then Ok (d, size)
          else
          match dec8 src with
          | (Some cp, n) =>
              let* r := appendW w cp d size max in
              let '(ok, d', size') := r in
              if ok then from8 f w (skipn n src) d' size' max else Ok (d', size')
          | (None, n) => from8 f w (skipn n src) d size max
          end
      end
  end.
Definition ConvertFromUTF8 (w : width) (src : list N) (d : dst) (max : nat) : res (dst * nat) :=
  from8 (S (length src)) w src d 0 max.

(** ** The parser helpers *)

(** State threaded by NextCodePoint: Pos, Size, NextCP, HasCombiningCP. *)
Record ncp := { n_pos : nat; n_size : nat; n_next : N; n_comb : bool }.

(** Lines 348-352 / 362-366: advance over the sequence starting at [pos], if it is one.
    Bytes are those of the C string [str] (terminator included). *)
Definition step_len (str : bytes) (pos size : nat) (cp : N) : res (option nat) :=
  if cp <=? 0x7F then Ok (Some 1%nat)
  else
    let chk k := (let* b := rd str (pos + k) in Ok (is_cont b)) in
    let* c2 := (if ((pos + 1 <? size)%nat && (N.land cp 0xE0 =? 0xC0))%bool then chk 1%nat else Ok false) in
    if (c2 : bool) then Ok (Some 2%nat) else
    let* c3 := (if ((pos + 2 <? size)%nat && (N.land cp 0xF0 =? 0xE0))%bool
                then let* b1 := chk 1%nat in if (b1 : bool) then chk 2%nat else Ok false else Ok false) in
    if (c3 : bool) then Ok (Some 3%nat) else
    let* c4 := (if ((pos + 3 <? size)%nat && (N.land cp 0xF8 =? 0xF0))%bool
                then let* b1 := chk 1%nat in
                     if (b1 : bool) then let* b2 := chk 2%nat in if (b2 : bool) then chk 3%nat else Ok false
                     else Ok false
                else Ok false) in
    if (c4 : bool) then Ok (Some 4%nat) else Ok None.

(** utf8_util.cpp:331-372 — NextCodePoint.  [slen] is what the unqualified call [strlen(Str)]
    on line 342 means inside the class: the member function of lines 291-307. *)
Definition NextCodePoint (slen : bytes -> res nat) (str : bytes) (s : ncp) : res (option N * ncp) :=
  let after (resultcp : N) (s : ncp) : res (option N * ncp) :=
    let* nx := rd str (n_pos s) in
    let* r := (if nx =? 0 then Ok (0, n_pos s)
               else let* o := step_len str (n_pos s) (n_size s) nx in
                    match o with
                    | Some k => Ok (nx, (n_pos s + k)%nat)
                    | None => Ok (0, n_pos s)
                    end) in
    let '(nx', pos') := r in
    Ok (Some resultcp, {| n_pos := pos'; n_size := n_size s; n_next := nx'; n_comb := is_combining nx' |}) in
  if negb (n_pos s =? 0)%nat then
    (if n_next s =? 0 then Ok (None, s) else after (n_next s) s)
  else
    let* size := slen str in
    let* cp := rd str 0 in
    let s0 := {| n_pos := 0; n_size := size; n_next := n_next s; n_comb := false |} in
    if cp =? 0 then Ok (None, s0)
    else
      let* o := step_len str 0 size cp in
      match o with
      | None => Ok (None, s0)
      | Some k =>
          let s1 := {| n_pos := k; n_size := size; n_next := n_next s; n_comb := false |} in
          if is_combining cp then Ok (None, s1) else after cp s1
      end.

(** utf8_util.cpp:300-304 — the counting loop of Util::strlen. *)
Fixpoint strlen_loop (slen : bytes -> res nat) (fuel : nat) (str : bytes) (s : ncp) (result : nat) : res nat :=
  match fuel with
  | O => Fuel
  | S f =>
      let* r := NextCodePoint slen str s in
      match r with
      | (None, s') => Ok (if n_comb s' then S result else result)
      | (Some _, s') => strlen_loop slen f str s' (if n_comb s' then result else S result)
      end
  end.

(** utf8_util.cpp:291-307 — Util::strlen.  Calls itself through NextCodePoint; the fuel bounds the
    depth of the recursion (and the loop). *)
Fixpoint util_strlen (fuel : nat) (str : bytes) : res nat :=
  match fuel with
  | O => Fuel
  | S f => strlen_loop (util_strlen f) (S f) str {| n_pos := 0; n_size := 0; n_next := 0; n_comb := false |} 0
  end.

(** utf8_util.cpp:309-329 — FindCodePoint. *)
Fixpoint find_loop (slen : bytes -> res nat) (fuel : nat) (str : bytes) (cp : N) (allow : bool) (s : ncp)
  : res (option nat) :=
  match fuel with
  | O => Fuel
  | S f =>
      let* r := NextCodePoint slen str s in
      match r with
      | (None, _) => Ok None
      | (Some c, s') =>
          if ((c =? cp) && (allow || negb (n_comb s')))%bool then Ok (Some (n_pos s'))
          else find_loop slen f str cp allow s'
      end
  end.
Definition FindCodePoint (fuel : nat) (str : bytes) (cp : N) (allow : bool) : res (option nat) :=
  if (negb allow && is_combining cp)%bool then Ok None
  else find_loop (util_strlen fuel) fuel str cp allow {| n_pos := 0; n_size := 0; n_next := 0; n_comb := false |}.

(** utf8_util.cpp:374-390 — NextASCIICodePoint. *)
Fixpoint NextASCII (slen : bytes -> res nat) (fuel : nat) (str : bytes) (s : ncp) : res (option N * ncp) :=
  match fuel with
  | O => Fuel
  | S f =>
      let* r := NextCodePoint slen str s in
      match r with
      | (None, s') => Ok (None, s')
      | (Some c, s') =>
          if (negb (n_comb s') && (c <=? 0x7F))%bool then Ok (Some c, s')
          else NextASCII slen f str s'
      end
  end.

(** utf8_util.cpp:51-65 — the allocating ConvertFromUTF8 starts with [strlen(SrcData)], again the
    member function, so only its first step is modelled. *)
Definition ConvertFromUTF8_alloc (fuel : nat) (w : width) (src : bytes) (garbage : nat) : res (list N * nat) :=
  let* x := util_strlen fuel src in
  let* r := ConvertFromUTF8 w (firstn x src) None garbage in
  let '(_, y) := r in
  let* r2 := ConvertFromUTF8 w (firstn x src) (Some (repeat 0 y)) y in
  match r2 with
  | (Some b, n) => Ok (b, n)
  | (None, _) => UB
  end.
