(** Model of sync/sync_util.cpp:139-215, the part of InitUnixNamedMem that makes the name of the
    shared memory object.  Definitions only.  [cap] is SHM_NAME_MAX (22-29): 255, on Apple 31. *)
From Verif Require Import Base.
Open Scope N_scope.

(** 146-156, 161-171, 174-184: one turn of the three loops; Name2, x2, z *)
Definition push (cap : nat) (st : bytes * nat * nat) (c : N) : res (bytes * nat * nat) :=
  let '(b, x2, z) := st in
  let* o := rd b x2 in
  let* b := wr b x2 ((o * 37 + c) mod 256) in
  Ok (if (S x2 =? cap - 1)%nat then (b, 1%nat, S z) else (b, S x2, z)).

Fixpoint pushes (cap : nat) (st : bytes * nat * nat) (t : bytes) : res (bytes * nat * nat) :=
  match t with [] => Ok st | c :: r => let* st := push cap st c in pushes cap st r end.

(** "%u" of printf for numbers below 2^32 *)
Fixpoint utoa (f : nat) (n : N) (acc : bytes) : bytes :=
  match f with
  | O => acc
  | S f => let acc := 48 + n mod 10 :: acc in if n / 10 =? 0 then acc else utoa f (n / 10) acc
  end.

(** 158: sprintf(Nums, "-%u-%u-", alignment, (unsigned int)Size); at most 24 bytes of the 50 *)
Definition nums (align size : N) : bytes := 45 :: utoa 10 (align mod W32) [] ++ 45 :: utoa 10 (size mod W32) [] ++ [45].

(** 193-199 *)
Definition norm1 (c : N) : N :=
  let t := c mod 64 in
  if t <? 10 then t + 48 else if t <? 36 then t - 10 + 65 else if t <? 62 then t - 36 + 97 else if t =? 62 then 95 else 45.

(** 191-202: for (x = 1; x < y; x++), [n] turns from [x] *)
Fixpoint normalise (b : bytes) (x n : nat) : res bytes :=
  match n with
  | O => Ok b
  | S m => let* c := rd b x in let* b := wr b x (norm1 c) in normalise b (S x) m
  end.

(** 205-208; at most [n] turns are left before the end of the array *)
Fixpoint clean (b : bytes) (x n : nat) : res bytes :=
  match n with
  | O => Ok b
  | S m =>
      let* c := rd b x in
      if c =? 0 then Ok b
      else let* b := (if (c =? 92) || (c =? 47) then wr b x 95 else Ok b) in clean b (S x) m
  end.

(** 139-208 *)
Definition shm_name (cap : nat) (prefix : bytes) (align size : N) (name : bytes) : res bytes :=
  let* st := pushes cap (repeat 0 cap, O, O) prefix in
  let* st := pushes cap st (nums align size) in
  let* (b, x2, z) := pushes cap st name in
  let* b := (if (z =? 0)%nat then Ok b else let y := if (1 <? z)%nat then (cap - 1)%nat else x2 in normalise b 1 (y - 1)) in
  clean b 1 (cap - 1).
