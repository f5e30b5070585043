(** Model of the hash functions: templates/detachable_ordered_hash.cpp lines
    22-116 (packed_ordered_hash.cpp lines 14-108 is the same text) and
    templates/cache.cpp lines 19-57.

    The string is a byte buffer [b]; Str is a position in it.  The word reads
    through casted pointers (lines 32, 81; cache.cpp line 41) are little-endian
    reads of four or eight bytes; alignment and aliasing rules are ignored. *)
From Verif Require Import Base.

(** The bytes of a word in memory, least significant first. *)
Fixpoint le_value (l : bytes) : N := match l with [] => 0 | c :: r => N.lor c (N.shiftl (le_value r) 8) end%N.
Definition load (n : nat) (b : bytes) (i : nat) : res N := let* s := slice b i n in Ok (le_value s).

(** Result = ((Result << 5) + Result) ^ y on 32-bit and on 64-bit operands. *)
Definition djb32 (r y : N) : N := N.lxor (w32 (w32 (N.shiftl r 5) + r)) y.
Definition djb64 (r y : N) : N := N.lxor (w64 (w64 (N.shiftl r 5) + r)) y.

(** Lines 29-37. *)
Fixpoint djb_loop (cnt : nat) (b : bytes) (p : nat) (r : N) : res N :=
  match cnt with
  | O => Ok r
  | S c => let* y := load 4 b p in djb_loop c b (p + 4) (djb32 r y)
  end.
(** Lines 39-45: Str[n-1] first. *)
Fixpoint djb_tail (n : nat) (b : bytes) (p : nat) (r : N) : res N :=
  match n with
  | O => Ok r
  | S i => let* c := rd b (p + i) in djb_tail i b p (djb32 r c)
  end.
(** GetDJBX33XHashKey, lines 22-48; CacheUtil::GetHashKey(uint8_t *, size_t),
    cache.cpp lines 31-57, is the case InitVal = 5381. *)
Definition get_djb (b : bytes) (size : nat) (init : N) : res N :=
  let left := size mod 4 in
  let* r := djb_loop ((size - left) / 4) b 0 (w32 init) in
  djb_tail left b (size - left) r.

(** CacheUtil::GetHashKey(char * ), cache.cpp lines 19-29, with 64-bit size_t
    and signed char: reads until the NUL. *)
Fixpoint get_djb_str (b : bytes) (r : N) : res N :=
  match b with
  | [] => UB
  | c :: t =>
      if N.eqb c 0 then Ok r
      else get_djb_str t (djb64 r (if N.ltb c 128 then c else w64 (W64 - 256 + c)))
  end.

(** ROTL, line 50. *)
Definition rotl (x : N) (n : N) : N := N.lor (w64 (N.shiftl x n)) (N.shiftr x (64 - n)).

(** SIPROUND, lines 52-58, statement by statement. *)
Definition sipround (v : N * N * N * N) : N * N * N * N :=
  let '(v0, v1, v2, v3) := v in
  let v0 := w64 (v0 + v1) in let v1 := rotl v1 13 in let v1 := N.lxor v1 v0 in let v0 := rotl v0 32 in
  let v2 := w64 (v2 + v3) in let v3 := rotl v3 16 in let v3 := N.lxor v3 v2 in
  let v0 := w64 (v0 + v3) in let v3 := rotl v3 21 in let v3 := N.lxor v3 v0 in
  let v2 := w64 (v2 + v1) in let v1 := rotl v1 17 in let v1 := N.lxor v1 v2 in let v2 := rotl v2 32 in
  (v0, v1, v2, v3).
(** for (x = 0; x < n; ++x)  SIPROUND; *)
Fixpoint rounds (n : nat) v := match n with O => v | S k => rounds k (sipround v) end.

(** Lines 83-87 (and 104-108). *)
Definition absorb (c : nat) (y : N) (v : N * N * N * N) : N * N * N * N :=
  let '(v0, v1, v2, v3) := v in
  let v3 := N.lxor v3 y in
  let '(v0, v1, v2, v3) := rounds c (v0, v1, v2, v3) in
  let v0 := N.lxor v0 y in
  (v0, v1, v2, v3).

(** Lines 78-90. *)
Fixpoint sip_loop (cnt : nat) (c : nat) (b : bytes) (p : nat) v : res (N * N * N * N) :=
  match cnt with
  | O => Ok v
  | S k => let* y := load 8 b p in sip_loop k c b (p + 8) (absorb c y v)
  end.
(** Lines 92-102: Str[n-1] << 8*(n-1) first. *)
Fixpoint sip_tail (n : nat) (b : bytes) (p : nat) (r : N) : res N :=
  match n with
  | O => Ok r
  | S i => let* y := rd b (p + i) in sip_tail i b p (N.lor r (N.shiftl y (8 * N.of_nat i)))
  end.

(** GetSipHashKey, lines 60-116. *)
Definition get_siphash (b : bytes) (size : nat) (k1 k2 : N) (c d : nat) : res N :=
  let v0 := 0x736f6d6570736575%N in
  let v1 := 0x646f72616e646f6d%N in
  let v2 := 0x6c7967656e657261%N in
  let v3 := 0x7465646279746573%N in
  let left := size mod 8 in
  let r := w64 (N.shiftl (N.of_nat size) 56) in
  let v3 := N.lxor v3 k2 in
  let v2 := N.lxor v2 k1 in
  let v1 := N.lxor v1 k2 in
  let v0 := N.lxor v0 k1 in
  let* v := sip_loop ((size - left) / 8) c b 0 (v0, v1, v2, v3) in
  let* r := sip_tail left b (size - left) r in
  let '(v0, v1, v2, v3) := absorb c r v in
  let v2 := N.lxor v2 255 in
  let '(v0, v1, v2, v3) := rounds d (v0, v1, v2, v3) in
  Ok (N.lxor (N.lxor (N.lxor v0 v1) v2) v3).
