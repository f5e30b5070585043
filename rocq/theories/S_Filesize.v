(** Specification of the file-size text, independent of the code. *)
From Verif Require Import Base S_Numeral.
Open Scope N_scope.

(** Units: index 0 = plain bytes, 1..6 = K, M, G, T, P, E; the size of unit [k] is 2^(10k). *)
Definition unit_size (k : N) : N := 2 ^ (10 * k).
Definition unit_letter (k : N) : N := nth (N.to_nat k) [0;75;77;71;84;80;69] 0.

(** Unit [k] is the one to use for [num].  Without fraction digits: the largest unit that
    is not larger than the number.  With fraction digits: as soon as the number reaches
    1000 of the next smaller unit, except that K is used from exactly 1024 bytes on. *)
Definition unit_threshold (frac : bool) (k : N) : N :=
  if k =? 0 then 0
  else if frac then (if k =? 1 then 1024 else 1000 * unit_size (k - 1))
  else unit_size k.
Definition is_unit (frac : bool) (num k : N) : Prop :=
  k <= 6 /\ unit_threshold frac k <= num /\ (k < 6 -> num < unit_threshold frac (k + 1)).

(** Fraction digits are shown from M upwards. *)
Definition shown_frac (k numfrac : N) : N := if k <? 2 then 0 else numfrac.

(** [ds] are the [n] decimal digits of [v], with leading zeros. *)
Definition padded (n : nat) (v : N) (ds : list N) : Prop :=
  length ds = n /\ Forall (fun d => d < 10) ds /\ value 10 ds = v.

(** The text of the size [num]: the integral part is [num / unit] and the fraction digits
    are those of [v]. *)
Definition size_text (k nf q v numsep decsep unitsep : N) (bytesunit text : bytes) : Prop :=
  exists qd fd,
    is_numeral 10 q qd /\ padded (N.to_nat nf) v fd /\
    text = numeral_text numsep qd
           ++ (if nf =? 0 then [] else decsep :: map glyph fd)
           ++ (if unitsep =? 0 then [] else [unitsep])
           ++ (if k =? 0 then bytesunit else [unit_letter k; 66]).

(** The correct fraction: the remainder scaled by 10^nf and truncated. *)
Definition true_frac (num k nf : N) : N := (num mod unit_size k) * 10 ^ nf / unit_size k.
