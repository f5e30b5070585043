(** Model of templates/static_mixed_var.h (StaticMixedVar<char[N]>) and of
    utf8/utf8_mixed_var.h (UTF8MixedVar<char[N]>, wchar_t of four bytes).  Definitions only.

    Modelled: the string part, that is MxStr and MxStrPos, and every operation that reads
    or writes them except PrependDouble / AppendDouble (lines 187-198, 231-242: the text
    comes from snprintf; what follows is PrependStr / AppendStr).  Not modelled: MxMode,
    MxInt, MxDouble and their setters (lines 106-128), which do not touch the string part.
    Characters are numbers below 256.  [MxStrPos + size] (line 167) is taken without
    wrap-around: [size] is the size of an object in memory. *)
From Verif Require Import Base M_ConvertInt M_Utf8.
Open Scope N_scope.

(** static_mixed_var.h:32-33 — MxStr (its length is sizeof(MxStr)) and MxStrPos. *)
Record var := Var { str : bytes; pos : nat }.

(** static_mixed_var.h:35-37 — the constructor: MxStrPos is zero, MxStr is not initialised. *)
Definition fresh (mem : bytes) : var := Var mem 0.

(** static_mixed_var.h:134-137, 202-205 — copy loop of SetStr and AppendStr; [room] is
    [sizeof(MxStr) - 1 - MxStrPos], [src] the memory at [str]. *)
Fixpoint copy_str (room : nat) (src : bytes) (v : var) : res var :=
  match room with
  | O => Ok v
  | S r =>
      match src with
      | [] => UB
      | c :: t =>
          if c =? 0 then Ok v
          else let* b := wr (str v) (pos v) c in copy_str r t (Var b (S (pos v)))
      end
  end.

(** static_mixed_var.h:145-149, 211-215 — copy loop of SetData and AppendData. *)
Fixpoint copy_data (room : nat) (src : bytes) (size : nat) (v : var) : res var :=
  match room, size with
  | S r, S n =>
      match src with
      | [] => UB
      | c :: t => let* b := wr (str v) (pos v) c in copy_data r t n (Var b (S (pos v)))
      end
  | _, _ => Ok v
  end.

(** The line [MxStr[MxStrPos] = 0] (138, 150, 206, 216, 249, 258, 276). *)
Definition terminate (v : var) : res var :=
  let* b := wr (str v) (pos v) 0 in Ok (Var b (pos v)).

(** static_mixed_var.h:200-207 *)
Definition AppendStr (v : var) (src : bytes) : res var :=
  let* v1 := copy_str (length (str v) - 1 - pos v) src v in terminate v1.

(** static_mixed_var.h:130-139 *)
Definition SetStr (v : var) (src : bytes) : res var :=
  let* v1 := copy_str (length (str v) - 1) src (Var (str v) 0) in terminate v1.

(** static_mixed_var.h:209-217 *)
Definition AppendData (v : var) (src : bytes) (size : nat) : res var :=
  let* v1 := copy_data (length (str v) - 1 - pos v) src size v in terminate v1.

(** static_mixed_var.h:141-151 *)
Definition SetData (v : var) (src : bytes) (size : nat) : res var :=
  let* v1 := copy_data (length (str v) - 1) src size (Var (str v) 0) in terminate v1.

(** static_mixed_var.h:165-173 *)
Definition PrependData (v : var) (src : bytes) (size : nat) : res var :=
  if (pos v + size <? length (str v) - 1)%nat then
    let* b1 := memmove (str v) size 0 (pos v + 1) in
    let* s := slice src 0 size in
    let* b2 := blit b1 0 s in
    Ok (Var b2 (pos v + size))
  else Ok v.

(** static_mixed_var.h:154-163 *)
Definition PrependStr (v : var) (src : bytes) : res var :=
  let* s := cstr src in PrependData v src (length s).

(** static_mixed_var.h:244-251 *)
Definition AppendChar (v : var) (c : N) : res var :=
  if (pos v <? length (str v) - 1)%nat then
    let* b := wr (str v) (pos v) c in terminate (Var b (S (pos v)))
  else Ok v.

(** The test [!MxStrPos || MxStr[MxStrPos - 1] != chr] of lines 255 and 264. *)
Definition ends_otherwise (v : var) (c : N) : res bool :=
  match pos v with
  | O => Ok true
  | S p => let* d := rd (str v) p in Ok (negb (d =? c))
  end.

(** static_mixed_var.h:253-260 *)
Definition AppendMissingChar (v : var) (c : N) : res var :=
  let* t := ends_otherwise v c in
  if t then AppendChar v c else Ok v.

(** static_mixed_var.h:262-269 *)
Definition RemoveTrailingChar (v : var) (c : N) : res (var * bool) :=
  let* t := ends_otherwise v c in
  if t then Ok (v, false)
  else let* v' := terminate (Var (str v) (pos v - 1)) in Ok (v', true).

(** static_mixed_var.h:271-278 *)
Definition SetSize (v : var) (size : nat) : res var :=
  if (size <? length (str v))%nat then terminate (Var (str v) size) else Ok v.

(** static_mixed_var.h:291-296 — the digit loop of IntToString; division by a zero radix is
    undefined.  [None] is the [return false] of line 298. *)
Fixpoint its_loop (x : nat) (buf : bytes) (num radix : N) : res (bytes * option nat) :=
  if num =? 0 then Ok (buf, Some x)
  else match x with
  | O => Ok (buf, None)
  | S x1 =>
      if radix =? 0 then UB
      else
        let* b := wr buf x1 (digit_char (num mod radix) mod 256) in
        its_loop x1 b (num / radix) radix
  end.

(** static_mixed_var.h:281-304 — IntToString for uint64_t; no check of the radix. *)
Definition IntToStringU (buf : bytes) (num radix : N) : res (bytes * bool) :=
  let size := length buf in
  if (size <? 2)%nat then Ok (buf, false)
  else
    let* b1 := wr buf (size - 1) 0 in
    let* (b2, r) := (if num =? 0
                     then let* b := wr b1 (size - 2) 48 in Ok (b, Some (size - 2)%nat)
                     else its_loop (size - 1) b1 num radix) in
    match r with
    | None => Ok (b2, false)
    | Some x => let* b3 := memmove b2 0 x (size - x) in Ok (b3, true)
    end.

(** static_mixed_var.h:306-314 — IntToString for int64_t. *)
Definition IntToStringI (buf : bytes) (num : Z) (radix : N) : res (bytes * bool) :=
  if (0 <=? num)%Z then IntToStringU buf (Z.to_N num) radix
  else if (length buf <? 2)%nat then Ok (buf, false)
  else
    let* b1 := wr buf 0 45 in
    let* m := neg64 num in
    let* (b2, ok) := IntToStringU (skipn 1 b1) m radix in
    Ok (firstn 1 b1 ++ b2, ok).

(** static_mixed_var.h:175-185, 219-229 — [tmp] is the uninitialised tempbuffer[44]. *)
Definition PrependInt (v : var) (val : Z) (radix : N) (tmp : bytes) : res var :=
  let* (b, ok) := IntToStringI tmp val radix in if ok then PrependStr v b else Ok v.
Definition PrependUInt (v : var) (val : N) (radix : N) (tmp : bytes) : res var :=
  let* (b, ok) := IntToStringU tmp val radix in if ok then PrependStr v b else Ok v.
Definition AppendInt (v : var) (val : Z) (radix : N) (tmp : bytes) : res var :=
  let* (b, ok) := IntToStringI tmp val radix in if ok then AppendStr v b else Ok v.
Definition AppendUInt (v : var) (val : N) (radix : N) (tmp : bytes) : res var :=
  let* (b, ok) := IntToStringU tmp val radix in if ok then AppendStr v b else Ok v.

(** utf8_mixed_var.h:35-36 and 55-56 *)
Definition settle (v : var) : res var :=
  let* back := (if (pos v =? length (str v))%nat then Ok true
                else match pos v with
                | O => Ok false
                | S p => let* d := rd (str v) p in Ok (d =? 0)
                end) in
  terminate (if back then Var (str v) (pos v - 1) else v).

(** utf8_mixed_var.h:30-37 *)
Definition SetUTF8 (v : var) (src : list N) : res var :=
  let* (d, size, _) := ConvertToUTF8 Wd4 src (Some (str v)) (length (str v)) in
  match d with
  | None => UB
  | Some b => settle (Var b size)
  end.

(** utf8_mixed_var.h:49-57 — [src] is the text before the terminating zero (wcslen).  Note
    that [srcsize], a number of wide characters, is also the capacity handed to the
    conversion. *)
Definition AppendUTF8 (v : var) (src : list N) : res var :=
  let srcsize := Nat.min (length src) (length (str v) - pos v) in
  let* (d, size, _) := ConvertToUTF8 Wd4 (firstn srcsize src) (Some (skipn (pos v) (str v))) srcsize in
  match d with
  | None => UB
  | Some b => settle (Var (firstn (pos v) (str v) ++ b) (pos v + size))
  end.
