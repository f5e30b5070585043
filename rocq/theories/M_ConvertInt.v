(** Model of convert/convert_int.cpp (class Convert::Int).  Definitions only. *)
From Verif Require Import Base.
Open Scope N_scope.

(** convert_int.cpp:33 — [(char)(z > 9 ? z - 10 + 'A' : z + '0')]. *)
Definition digit_char (z : N) : N := if 9 <? z then z - 10 + 65 else z + 48.

(** convert_int.cpp:24-38 — the digit loop.  [x] is the write position, [y] the number
    of digits so far.  The result is the buffer and [Some x] when the loop finished
    with [Num == 0], [None] when the function returns false from inside (line 29 or 38).
    The fuel only bounds the recursion; every iteration lowers [x]. *)
Fixpoint ts_loop (fuel : nat) (buf : bytes) (x y : nat) (num sep radix : N)
  : res (bytes * option nat) :=
  match fuel with
  | O => Fuel
  | S f =>
      if (num =? 0) then Ok (buf, Some x)
      else match x with
      | O => Ok (buf, None)
      | S x1 =>
          if (negb (sep =? 0) && negb (y =? 0)%nat && (y mod 3 =? 0)%nat)%bool then
            let* b1 := wr buf x1 sep in
            match x1 with
            | O => Ok (b1, None)
            | S x2 =>
                let* b2 := wr b1 x2 (digit_char (num mod radix)) in
                ts_loop f b2 x2 (S y) (num / radix) sep radix
            end
          else
            let* b1 := wr buf x1 (digit_char (num mod radix)) in
            ts_loop f b1 x1 (S y) (num / radix) sep radix
      end
  end.

(** convert_int.cpp:14-44 — Int::ToString for uint64_t.  [buf] is Result[0..Size-1]
    with arbitrary previous contents, so Size is its length.  Returns the buffer after
    the call and the boolean result. *)
Definition ToStringU (buf : bytes) (num sep radix : N) : res (bytes * bool) :=
  let size := length buf in
  if ((size <? 2)%nat || (radix <? 2) || (36 <? radix))%bool then Ok (buf, false)
  else
    let* b1 := wr buf (size - 1) 0 in
    let* r := (if num =? 0
               then let* b2 := wr b1 (size - 2) 48 in Ok (b2, Some (size - 2)%nat)
               else ts_loop (S size) b1 (size - 1) 0 num sep radix) in
    match r with
    | (b2, None) => Ok (b2, false)
    | (b2, Some x) => let* b3 := memmove b2 0 x (size - x) in Ok (b3, true)
    end.

(** Negation of an int64_t: undefined for the most negative value. *)
Definition neg64 (z : Z) : res N :=
  if (z =? - 2^63)%Z then UB else Ok (Z.to_N (- z)).

(** convert_int.cpp:46-54 — Int::ToString for int64_t. *)
Definition ToStringI (buf : bytes) (num : Z) (sep radix : N) : res (bytes * bool) :=
  if (0 <=? num)%Z then ToStringU buf (Z.to_N num) sep radix
  else
    if (length buf <? 2)%nat then Ok (buf, false)
    else
      let* b1 := wr buf 0 45 in
      let* m := neg64 num in
      let* r := ToStringU (skipn 1 b1) m sep radix in
      let '(b2, ok) := r in Ok (firstn 1 b1 ++ b2, ok).

(** convert_int.cpp:65-146 — choice of unit letter (0 = none), divider and effective
    number of fraction digits. *)
Definition fs_unit (num numfrac : N) : N * N * N :=
  if negb (numfrac =? 0) then
    if 1125899906842624000 <=? num then (69, 1152921504606846976, numfrac)
    else if 1099511627776000 <=? num then (80, 1125899906842624, numfrac)
    else if 1073741824000 <=? num then (84, 1099511627776, numfrac)
    else if 1048576000 <=? num then (71, 1073741824, numfrac)
    else if 1024000 <=? num then (77, 1048576, numfrac)
    else if 1024 <=? num then (75, 1024, 0)
    else (0, 1, 0)
  else
    if 1152921504606846976 <=? num then (69, 1152921504606846976, 0)
    else if 1125899906842624 <=? num then (80, 1125899906842624, 0)
    else if 1099511627776 <=? num then (84, 1099511627776, 0)
    else if 1073741824 <=? num then (71, 1073741824, 0)
    else if 1048576 <=? num then (77, 1048576, 0)
    else if 1024 <=? num then (75, 1024, 0)
    else (0, 1, 0).

(** convert_int.cpp:167 — [for (...) Extra *= 10ULL], wrapping modulo 2^64. *)
Fixpoint fs_scale (n : nat) (extra : N) : N :=
  match n with O => extra | S k => fs_scale k (w64 (extra * 10)) end.

(** convert_int.cpp:170-175 — fraction digits while Extra is not zero. *)
Fixpoint fs_frac1 (buf : bytes) (x : nat) (extra : N) (nf : nat) {struct nf} : res (bytes * nat * N * nat) :=
  match nf with
  | O => Ok (buf, x, extra, O)
  | S nf' =>
      if extra =? 0 then Ok (buf, x, extra, nf)
      else match x with
      | O => Ok (buf, x, extra, nf)
      | S x1 => let* b1 := wr buf x1 (extra mod 10 + 48) in fs_frac1 b1 x1 (extra / 10) nf'
      end
  end.

(** convert_int.cpp:177-181 — padding zeros of the fraction. *)
Fixpoint fs_frac2 (buf : bytes) (x : nat) (nf : nat) {struct nf} : res (bytes * nat * nat) :=
  match nf with
  | O => Ok (buf, x, O)
  | S nf' =>
      match x with
      | O => Ok (buf, x, nf)
      | S x1 => let* b1 := wr buf x1 48 in fs_frac2 b1 x1 nf'
      end
  end.

(** convert_int.cpp:162-188 — the fraction part; [None] is "return false".
    NumFrac is below 2^64 - 2 here (the addition on line 164 would wrap otherwise,
    and the multiplication loop would run 2^64 times first). *)
Definition fs_fraction (buf : bytes) (x : nat) (num divider : N) (nf : nat) (decsep : N)
  : res (bytes * option nat) :=
  match nf with
  | O => Ok (buf, Some x)
  | _ =>
      if (x <? nf + 2)%nat then Ok (buf, None)
      else
        let extra := fs_scale nf (num mod divider) / divider in
        let* r1 := fs_frac1 buf x extra nf in
        let '(b1, x1, e1, nf1) := r1 in
        let* r2 := fs_frac2 b1 x1 nf1 in
        let '(b2, x2, _) := r2 in
        if (negb (e1 =? 0) || (x2 =? 0)%nat)%bool then Ok (b2, None)
        else
          let* b3 := wr b2 (x2 - 1) decsep in
          if (x2 - 1 =? 0)%nat then Ok (b3, None) else Ok (b3, Some (x2 - 1)%nat)
  end.

(** convert_int.cpp:56-214 — Int::ToFilesizeString for uint64_t.  [unit] is the BytesUnit
    string without its terminator.  NumFrac is a size_t; the effective value is turned
    into a [nat] loop bound. *)
Definition ToFilesizeU (buf : bytes) (num numfrac numsep decsep unitsep : N) (unit : bytes)
  : res (bytes * bool) :=
  let size := length buf in
  if (size <? 5 + length unit)%nat then Ok (buf, false)
  else
    let '(trail, divider, nf) := fs_unit num numfrac in
    let* r1 := (if negb (trail =? 0) then
                  let* b1 := wr buf (size - 1) 0 in
                  let* b2 := wr b1 (size - 2) 66 in
                  let* b3 := wr b2 (size - 3) trail in
                  Ok (b3, (size - 3)%nat)
                else
                  let x := (size - length unit - 1)%nat in
                  let* b1 := blit buf x (unit ++ [0]) in Ok (b1, x)) in
    let '(b1, x1) := r1 in
    let* r2 := (if negb (unitsep =? 0)
                then let* b2 := wr b1 (x1 - 1) unitsep in Ok (b2, (x1 - 1)%nat)
                else Ok (b1, x1)) in
    let '(b2, x2) := r2 in
    let* r3 := fs_fraction b2 x2 num divider (N.to_nat nf) decsep in
    match r3 with
    | (b3, None) => Ok (b3, false)
    | (b3, Some x3) =>
        let q := num / divider in
        let* r4 := (if q =? 0
                    then match x3 with
                         | O => UB (* Result[--x] with x == 0 *)
                         | S x4 => let* b4 := wr b3 x4 48 in Ok (b4, Some x4)
                         end
                    else ts_loop (S x3) b3 x3 0 q numsep 10) in
        match r4 with
        | (b4, None) => Ok (b4, false)
        | (b4, Some x4) => let* b5 := memmove b4 0 x4 (size - x4) in Ok (b5, true)
        end
    end.

(** convert_int.cpp:216-224 — Int::ToFilesizeString for int64_t. *)
Definition ToFilesizeI (buf : bytes) (num : Z) (numfrac numsep decsep unitsep : N) (unit : bytes)
  : res (bytes * bool) :=
  if (0 <=? num)%Z then ToFilesizeU buf (Z.to_N num) numfrac numsep decsep unitsep unit
  else
    if (length buf <? 2)%nat then Ok (buf, false)
    else
      let* b1 := wr buf 0 45 in
      let* m := neg64 num in
      let* r := ToFilesizeU (skipn 1 b1) m numfrac numsep decsep unitsep unit in
      let '(b2, ok) := r in Ok (firstn 1 b1 ++ b2, ok).
