(** Specification of unbounded string variables.  Nothing here refers to the model. *)
From Verif Require Import Base S_Seq S_Numeral.
From Verif Require S_MixedVar.
Open Scope nat_scope.

(** Operations on the variables, which are named by numbers.  A string argument is its
    characters [s] followed in memory by a NUL and [rest]; a data argument is [d] followed in
    memory by [rest]; [tmp] is scratch memory. *)
Inductive vop :=
| VSetStr (x : nat) (s rest : bytes)
| VSetData (x : nat) (d rest : bytes)
| VPrependStr (x : nat) (s rest : bytes)
| VPrependData (x : nat) (d rest : bytes)
| VPrependInt (x : nat) (z : Z) (radix : N) (tmp : bytes)
| VPrependUInt (x : nat) (n : N) (radix : N) (tmp : bytes)
| VAppendStr (x : nat) (s rest : bytes)
| VAppendData (x : nat) (d rest : bytes)
| VAppendInt (x : nat) (z : Z) (radix : N) (tmp : bytes)
| VAppendUInt (x : nat) (n : N) (radix : N) (tmp : bytes)
| VAppendChar (x : nat) (c : N)
| VAppendMissingChar (x : nat) (c : N)
| VSetSize (x k : nat)
| VAssign (x y : nat)
| VRenew (x : nat). (* destroyed and constructed again *)

(** [None]: no string at all (NULL). *)
Definition texts := nat -> option bytes.
Definition chars (t : option bytes) : bytes := match t with Some s => s | None => [] end.

(** What the caller must respect: strings without embedded NUL, radix 2 to 36, 64-bit
    numbers (signed ones other than the most negative), at most 2^29 characters per argument,
    no SetSize(0) on a variable without string. *)
Definition asked (T : texts) (o : vop) : Prop :=
  match o with
  | VSetStr _ s _ | VPrependStr _ s _ | VAppendStr _ s _ =>
      Forall (fun c => c <> 0%N) s /\ length s <= 2 ^ 29
  | VSetData _ d _ | VPrependData _ d _ | VAppendData _ d _ => length d <= 2 ^ 29
  | VPrependInt _ z r tmp | VAppendInt _ z r tmp =>
      (- 2^63 < z < 2^63)%Z /\ (2 <= r <= 36)%N /\ length tmp = 44
  | VPrependUInt _ n r tmp | VAppendUInt _ n r tmp =>
      (n < 2^64)%N /\ (2 <= r <= 36)%N /\ length tmp = 44
  | VSetSize x k => k <= 2 ^ 29 /\ (k = 0 -> T x <> None)
  | _ => True
  end.

(** The variables stay below 2^29 - 100 characters (so that the sizes asked of the allocator
    stay below 2^30). *)
Definition moderate (T : texts) : Prop := forall x, length (chars (T x)) + 100 <= 2 ^ 29.

Definition ends_with (t : bytes) (c : N) : Prop := exists t0, t = t0 ++ [c].

(** New text of the variable an operation works on. *)
Inductive becomes (T : texts) : vop -> nat -> option bytes -> Prop :=
| b_set_str x s r : becomes T (VSetStr x s r) x (Some s)
| b_set_data x s r : becomes T (VSetData x s r) x (Some s)
| b_pre_str x s r : becomes T (VPrependStr x s r) x (Some (s ++ chars (T x)))
| b_pre_data x s r : becomes T (VPrependData x s r) x (Some (s ++ chars (T x)))
| b_app_str x s r : becomes T (VAppendStr x s r) x (Some (chars (T x) ++ s))
| b_app_data x s r : becomes T (VAppendData x s r) x (Some (chars (T x) ++ s))
| b_pre_int x z r tmp w : S_MixedVar.written z r w -> length w <= 43 ->
    becomes T (VPrependInt x z r tmp) x (Some (w ++ chars (T x)))
| b_pre_int_long x z r tmp w : S_MixedVar.written z r w -> 43 < length w ->
    becomes T (VPrependInt x z r tmp) x (T x)
| b_pre_uint x n r tmp w : S_MixedVar.written (Z.of_N n) r w -> length w <= 43 ->
    becomes T (VPrependUInt x n r tmp) x (Some (w ++ chars (T x)))
| b_pre_uint_long x n r tmp w : S_MixedVar.written (Z.of_N n) r w -> 43 < length w ->
    becomes T (VPrependUInt x n r tmp) x (T x)
| b_app_int x z r tmp w : S_MixedVar.written z r w -> length w <= 43 ->
    becomes T (VAppendInt x z r tmp) x (Some (chars (T x) ++ w))
| b_app_int_long x z r tmp w : S_MixedVar.written z r w -> 43 < length w ->
    becomes T (VAppendInt x z r tmp) x (T x)
| b_app_uint x n r tmp w : S_MixedVar.written (Z.of_N n) r w -> length w <= 43 ->
    becomes T (VAppendUInt x n r tmp) x (Some (chars (T x) ++ w))
| b_app_uint_long x n r tmp w : S_MixedVar.written (Z.of_N n) r w -> 43 < length w ->
    becomes T (VAppendUInt x n r tmp) x (T x)
| b_char x c : becomes T (VAppendChar x c) x (Some (chars (T x) ++ [c]))
| b_missing_there x c : ends_with (chars (T x)) c -> becomes T (VAppendMissingChar x c) x (T x)
| b_missing x c : ~ ends_with (chars (T x)) c ->
    becomes T (VAppendMissingChar x c) x (Some (chars (T x) ++ [c]))
| b_cut x k : k <= length (chars (T x)) -> becomes T (VSetSize x k) x (Some (firstn k (chars (T x))))
| b_extend x k more : length (chars (T x)) + length more = k -> 0 < length more ->
    becomes T (VSetSize x k) x (Some (chars (T x) ++ more))
| b_assign x y : becomes T (VAssign x y) x (T y)
| b_renew x : becomes T (VRenew x) x None.
