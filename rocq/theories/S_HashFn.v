(** Specifications of the hash functions, from their published definitions. *)
From Verif Require Import Base.

(** ** SipHash-c-d (Aumasson, Bernstein 2012): 64-bit words, all arithmetic modulo 2^64. *)
Definition plus64 (x y : N) : N := N.modulo (x + y) (2 ^ 64).
(** Rotation to the left by [b] bits. *)
Definition rot64 (b x : N) : N := ((x * 2 ^ b) mod 2 ^ 64 + x / 2 ^ (64 - b))%N.

Definition state := (N * N * N * N)%type.
(** SipRound, figure 2.1 of the paper: the two half rounds. *)
Definition sip_round (v : state) : state :=
  let '(v0, v1, v2, v3) := v in
  let v0 := plus64 v0 v1 in let v2 := plus64 v2 v3 in
  let v1 := rot64 13 v1 in let v3 := rot64 16 v3 in
  let v1 := N.lxor v1 v0 in let v3 := N.lxor v3 v2 in
  let v0 := rot64 32 v0 in
  let v2 := plus64 v2 v1 in let v0 := plus64 v0 v3 in
  let v1 := rot64 17 v1 in let v3 := rot64 21 v3 in
  let v1 := N.lxor v1 v2 in let v3 := N.lxor v3 v0 in
  let v2 := rot64 32 v2 in
  (v0, v1, v2, v3).

(** Little-endian value of a byte string. *)
Fixpoint le (l : bytes) : N := match l with [] => 0 | b :: r => b + 256 * le r end%N.

(** The message padded with zeros and its length modulo 256 to a multiple of 8 bytes, as words. *)
Definition padded (m : bytes) : bytes := m ++ repeat 0%N (7 - length m mod 8) ++ [N.of_nat (length m) mod 256]%N.
Fixpoint words8 (n : nat) (l : bytes) : list N :=
  match n with O => [] | S k => le (firstn 8 l) :: words8 k (skipn 8 l) end.

Definition sip_compress (c : nat) (v : state) (w : N) : state :=
  let '(v0, v1, v2, v3) := v in
  let '(v0, v1, v2, v3) := Nat.iter c sip_round (v0, v1, v2, N.lxor v3 w) in
  (N.lxor v0 w, v1, v2, v3).
Definition siphash (c d : nat) (k0 k1 : N) (m : bytes) : N :=
  let v := (N.lxor k0 0x736f6d6570736575, N.lxor k1 0x646f72616e646f6d,
            N.lxor k0 0x6c7967656e657261, N.lxor k1 0x7465646279746573)%N in
  let '(v0, v1, v2, v3) := fold_left (sip_compress c) (words8 (S (length m / 8)) (padded m)) v in
  let '(v0, v1, v2, v3) := Nat.iter d sip_round (v0, v1, N.lxor v2 255, v3) in
  N.lxor (N.lxor v0 v1) (N.lxor v2 v3).

(** ** x33-xor modulo 2^k *)
Definition x33 (k : N) (r y : N) : N := N.lxor ((33 * r) mod 2 ^ k) y.

(** The library's word-wise variant: whole 32-bit words, then the remaining
    bytes from last to first. *)
Fixpoint words4 (n : nat) (l : bytes) : list N :=
  match n with O => [] | S k => le (firstn 4 l) :: words4 k (skipn 4 l) end.
Definition djb_words (init : N) (m : bytes) : N :=
  let q := length m / 4 in
  fold_left (x33 32) (words4 q m ++ rev (skipn (4 * q) m)) (init mod 2 ^ 32)%N.

(** djb2 over the characters up to the NUL; char is signed and is widened to 64 bits. *)
Definition widen (c : N) : N := if (c <? 128)%N then c else (c + (2 ^ 64 - 256))%N.
Definition djb_chars (m : bytes) : N := fold_left (x33 64) (map widen m) 5381%N.
