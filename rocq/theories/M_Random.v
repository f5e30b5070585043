(** Model of security/security_csprng.cpp on POSIX: GetBytes lines 46-63 and
    GetInteger lines 67-94.

    The device is the sequence of results of read(2): an error (EINTR or
    another) or the bytes delivered.  Size is below 2^63, so that the cast to
    ssize_t on line 58 keeps its value; a little-endian machine is assumed
    where the bytes of Result are filled (line 86). *)
From Verif Require Import Base M_HashFn.

Inductive rres := RErr (eintr : bool) | RGot (l : bytes).
Definition device := nat -> rres.

(** BytesRead. *)
Definition count (r : rres) : Z := match r with RErr _ => -1 | RGot l => Z.of_nat (length l) end.
(** What the call leaves in the buffer. *)
Definition fill_in (r : rres) (buf : bytes) : res bytes := match r with RErr _ => Ok buf | RGot l => blit buf 0 l end.

(** Lines 54-57: repeat while BytesRead < 0 && errno == EINTR; the device is at
    its [i]-th call. *)
Fixpoint read_loop (fuel : nat) (s : device) (i : nat) (buf : bytes) : res (rres * bytes * nat) :=
  match fuel with
  | O => Fuel
  | S f =>
      let r := s i in
      let* buf := fill_in r buf in
      match r with RErr true => read_loop f s (S i) buf | _ => Ok (r, buf, S i) end
  end.
(** Lines 52-62. *)
Fixpoint bytes_loop (fuel : nat) (s : device) (i : nat) (buf : bytes) (size : nat) : res (bool * bytes * nat) :=
  match fuel with
  | O => Fuel
  | S f =>
      let* (r, buf, i) := read_loop (S f) s i buf in
      if (count r =? Z.of_nat size)%Z then Ok (negb (count r <? 0)%Z, buf, i)
      else bytes_loop f s i buf size
  end.
(** GetBytes, lines 46-63; [opened]: MxURandom >= 0. *)
Definition get_bytes (opened : bool) (fuel : nat) (s : device) (i : nat) (buf : bytes) (size : nat) : res (bool * bytes * nat) :=
  if opened then bytes_loop fuel s i buf size else Ok (false, buf, i).

(** Line 80. *)
Fixpoint mask_loop (fuel : nat) (max2 mask : N) : res N :=
  match fuel with
  | O => Fuel
  | S f => if (mask <? max2)%N then mask_loop f max2 (N.lor (w64 (N.shiftl mask 1)) 1) else Ok mask
  end.
(** Lines 84-93; [buf] is the memory of Result. *)
Fixpoint int_loop (opened : bool) (fuel : nat) (s : device) (i : nat) (buf : bytes) (mask max2 min : N) : res (bool * N * nat) :=
  match fuel with
  | O => Fuel
  | S f =>
      let* (ok, buf, i) := get_bytes opened (S f) s i buf 8 in
      if negb ok then Ok (false, le_value buf, i)
      else
        let r := N.land (le_value buf) mask in
        if (max2 <? r)%N then int_loop opened f s i buf mask max2 min
        else Ok (true, w64 (r + min), i)
  end.
(** GetInteger, lines 67-94; [buf] are the eight bytes of Result. *)
Definition get_integer (opened : bool) (fuel : nat) (s : device) (i : nat) (buf : bytes) (min max : N) : res (bool * N * nat) :=
  let (min, max) := if (max <? min)%N then (max, min) else (min, max) in
  let max2 := (max - min)%N in
  let* mask := mask_loop 65 max2 0 in
  int_loop opened fuel s i buf mask max2 min.
