(** Specification of a bounded string variable: what each operation does to the text it holds.
    Nothing here refers to the model. *)
From Verif Require Import Base S_Numeral.
Open Scope N_scope.

(** The operations.  A string argument is its characters [s] followed in memory by a NUL and
    [rest]; a data argument is [d] followed in memory by [rest]; [tmp] is scratch memory. *)
Inductive op :=
| OSetStr (s rest : bytes)
| OSetData (d rest : bytes)
| OPrependStr (s rest : bytes)
| OPrependData (d rest : bytes)
| OPrependInt (z : Z) (radix : N) (tmp : bytes)
| OPrependUInt (n : N) (radix : N) (tmp : bytes)
| OAppendStr (s rest : bytes)
| OAppendData (d rest : bytes)
| OAppendInt (z : Z) (radix : N) (tmp : bytes)
| OAppendUInt (n : N) (radix : N) (tmp : bytes)
| OAppendChar (c : N)
| OAppendMissingChar (c : N)
| ORemoveTrailingChar (c : N)
| OSetSize (k : nat).

(** Arguments a caller may pass: strings without embedded NUL, radix 2 to 36, 64-bit numbers,
    for signed ones other than the most negative. *)
Definition valid (o : op) : Prop :=
  match o with
  | OSetStr s _ | OPrependStr s _ | OAppendStr s _ => Forall (fun c => c <> 0) s
  | OPrependInt z r tmp | OAppendInt z r tmp =>
      (- 2^63 < z < 2^63)%Z /\ 2 <= r <= 36 /\ length tmp = 44%nat
  | OPrependUInt n r tmp | OAppendUInt n r tmp =>
      n < 2^64 /\ 2 <= r <= 36 /\ length tmp = 44%nat
  | _ => True
  end.

(** [w] is the written form of an integer. *)
Definition written (z : Z) (r : N) (w : bytes) : Prop :=
  exists ds, is_numeral r (Z.to_N (Z.abs z)) ds /\
    w = (if (z <? 0)%Z then [45] else []) ++ map glyph ds.

Section Effect.
(** [size]: number of bytes of the buffer. *)
Variable size : nat.

Definition appended (t s : bytes) : bytes := t ++ firstn (size - 1 - length t) s.
Definition prepended (t s : bytes) : bytes :=
  if (length t + length s <? size - 1)%nat then s ++ t else t.

(** Effect on the text and answer of an operation. *)
Inductive effect (t : bytes) : op -> bytes -> bool -> Prop :=
| e_set_str s rest : effect t (OSetStr s rest) (firstn (size - 1) s) true
| e_set_data d rest : effect t (OSetData d rest) (firstn (size - 1) d) true
| e_pre_str s rest : effect t (OPrependStr s rest) (prepended t s) true
| e_pre_data d rest : effect t (OPrependData d rest) (prepended t d) true
| e_app_str s rest : effect t (OAppendStr s rest) (appended t s) true
| e_app_data d rest : effect t (OAppendData d rest) (appended t d) true
| e_pre_int z r tmp w : written z r w -> (length w <= 43)%nat ->
    effect t (OPrependInt z r tmp) (prepended t w) true
| e_pre_int_long z r tmp w : written z r w -> (43 < length w)%nat ->
    effect t (OPrependInt z r tmp) t true
| e_pre_uint n r tmp w : written (Z.of_N n) r w -> (length w <= 43)%nat ->
    effect t (OPrependUInt n r tmp) (prepended t w) true
| e_pre_uint_long n r tmp w : written (Z.of_N n) r w -> (43 < length w)%nat ->
    effect t (OPrependUInt n r tmp) t true
| e_app_int z r tmp w : written z r w -> (length w <= 43)%nat ->
    effect t (OAppendInt z r tmp) (appended t w) true
| e_app_int_long z r tmp w : written z r w -> (43 < length w)%nat ->
    effect t (OAppendInt z r tmp) t true
| e_app_uint n r tmp w : written (Z.of_N n) r w -> (length w <= 43)%nat ->
    effect t (OAppendUInt n r tmp) (appended t w) true
| e_app_uint_long n r tmp w : written (Z.of_N n) r w -> (43 < length w)%nat ->
    effect t (OAppendUInt n r tmp) t true
| e_char c : effect t (OAppendChar c) (appended t [c]) true
| e_missing_there c t0 : t = t0 ++ [c] -> effect t (OAppendMissingChar c) t true
| e_missing c : (forall t0, t <> t0 ++ [c]) -> effect t (OAppendMissingChar c) (appended t [c]) true
| e_trail c t0 : t = t0 ++ [c] -> effect t (ORemoveTrailingChar c) t0 true
| e_trail_none c : (forall t0, t <> t0 ++ [c]) -> effect t (ORemoveTrailingChar c) t false
| e_cut k : (k <= length t)%nat -> (k < size)%nat -> effect t (OSetSize k) (firstn k t) true
| e_extend k junk : (length t + length junk = k)%nat -> (k < size)%nat ->
    effect t (OSetSize k) (t ++ junk) true
| e_too_big k : (size <= k)%nat -> effect t (OSetSize k) t true.

(** A history of operations, with the answers. *)
Inductive history : bytes -> list op -> bytes -> list bool -> Prop :=
| h_nil t : history t [] t []
| h_cons t o t1 a p t2 l : effect t o t1 a -> history t1 p t2 l -> history t (o :: p) t2 (a :: l).

(** Operations after which the text is certainly followed by a NUL. *)
Definition establishes (o : op) : Prop :=
  match o with
  | OSetStr _ _ | OSetData _ _ | OAppendStr _ _ | OAppendData _ _ => True
  | OSetSize k => (k < size)%nat
  | _ => False
  end.
End Effect.

(** Storing the bytes [o] in a buffer of [size] bytes as a C string: the last byte gives way
    to the terminator when the bytes fill the buffer or already end in NUL. *)
Definition trimmed (size : nat) (o t : bytes) : Prop :=
  ((length o = size \/ last o 1 = 0) /\ t = removelast o) \/
  ((length o < size)%nat /\ last o 1 <> 0 /\ t = o).
