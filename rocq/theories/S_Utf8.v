(** Specification of Unicode encodings, written with plain arithmetic and independent of the code. *)
From Verif Require Import Base.
Open Scope N_scope.

(** Code points that may appear in text: up to U+10FFFF, no surrogates, no noncharacters. *)
Definition allowed (cp : N) : Prop :=
  cp <= 0x10FFFF /\ ~ (0xD800 <= cp <= 0xDFFF) /\ ~ (0xFDD0 <= cp <= 0xFDEF) /\ cp mod 0x10000 < 0xFFFE.

(** The four blocks of combining marks the library knows about. *)
Definition combining (cp : N) : Prop :=
  0x300 <= cp <= 0x36F \/ 0x1DC0 <= cp <= 0x1DFF \/ 0x20D0 <= cp <= 0x20FF \/ 0xFE20 <= cp <= 0xFE2F.

(** [pattern n cp bs]: [bs] is the [n]-byte UTF-8 bit pattern holding [cp]; not necessarily the shortest. *)
Definition pattern (n : nat) (cp : N) (bs : list N) : Prop :=
  match n with
  | 1%nat => cp < 2^7 /\ bs = [cp]
  | 2%nat => cp < 2^11 /\ bs = [192 + cp / 64; 128 + cp mod 64]
  | 3%nat => cp < 2^16 /\ bs = [224 + cp / 4096; 128 + cp / 64 mod 64; 128 + cp mod 64]
  | 4%nat => cp < 2^21 /\
             bs = [240 + cp / 262144; 128 + cp / 4096 mod 64; 128 + cp / 64 mod 64; 128 + cp mod 64]
  | _ => False
  end.

(** Shortest form. *)
Definition enc8 (cp : N) : list N :=
  if cp <? 128 then [cp]
  else if cp <? 2048 then [192 + cp / 64; 128 + cp mod 64]
  else if cp <? 65536 then [224 + cp / 4096; 128 + cp / 64 mod 64; 128 + cp mod 64]
  else [240 + cp / 262144; 128 + cp / 4096 mod 64; 128 + cp / 64 mod 64; 128 + cp mod 64].

Definition enc16 (cp : N) : list N :=
  if cp <? 65536 then [cp]
  else [0xD800 + (cp - 65536) / 1024; 0xDC00 + (cp - 65536) mod 1024].

Definition enc32 (cp : N) : list N := [cp].

Definition text (enc : N -> list N) (cps : list N) : list N := concat (map enc cps).

(** A text: allowed code points, the first of which is not a combining mark. *)
Definition good_text (cps : list N) : Prop :=
  Forall allowed cps /\ match cps with [] => True | c :: _ => ~ combining c end.

(** Well-formed shortest-form UTF-8. *)
Definition wf_utf8 (bs : list N) : Prop := exists cps, good_text cps /\ bs = text enc8 cps.

(** [scan8 bs cps]: reading [bs] from left to right, skipping every byte at which no pattern
    starts, the patterns found hold [cps]. *)
Inductive scan8 : list N -> list N -> Prop :=
| sc_nil : scan8 [] []
| sc_cp n cp s r cps : pattern n cp s -> scan8 r cps -> scan8 (s ++ r) (cp :: cps)
| sc_skip b r cps : (forall n cp s t, b :: r = s ++ t -> ~ pattern n cp s) ->
                    scan8 r cps -> scan8 (b :: r) cps.

(** The same for 16-bit units: an unpaired low surrogate stands for itself (and will be refused
    as a code point), a high surrogate takes the next unit with it. *)
Inductive scan16 : list N -> list N -> Prop :=
| s16_nil : scan16 [] []
| s16_one u r cps : ~ (0xD800 <= u < 0xDC00) -> scan16 r cps -> scan16 (u :: r) (u :: cps)
| s16_two h l r cps : 0xD800 <= h < 0xDC00 -> 0xDC00 <= l < 0xE000 -> scan16 r cps ->
    scan16 (h :: l :: r) (65536 + (h - 0xD800) * 1024 + (l - 0xDC00) :: cps)
| s16_bad h u r cps : 0xD800 <= h < 0xDC00 -> ~ (0xDC00 <= u < 0xE000) -> scan16 r cps ->
    scan16 (h :: u :: r) cps
| s16_end h : 0xD800 <= h < 0xDC00 -> scan16 [h] [].

(** [keeps cap out cps out']: feeding the code points [cps] one by one to an output [out] of at
    most [cap] units ([None]: unbounded): each is appended if it is allowed, does not put a
    combining mark first and fits; otherwise it is dropped. *)
Definition fits (cap : option nat) (n : nat) : Prop :=
  match cap with None => True | Some m => (n <= m)%nat end.

Definition accepts (enc : N -> list N) (cap : option nat) (out : list N) (cp : N) : Prop :=
  allowed cp /\ (out = [] -> ~ combining cp) /\ fits cap (length out + length (enc cp)).

Inductive keeps (enc : N -> list N) (cap : option nat) : list N -> list N -> list N -> Prop :=
| k_nil out : keeps enc cap out [] out
| k_take out cp r o : accepts enc cap out cp -> keeps enc cap (out ++ enc cp) r o ->
                      keeps enc cap out (cp :: r) o
| k_drop out cp r o : ~ accepts enc cap out cp -> keeps enc cap out r o ->
                      keeps enc cap out (cp :: r) o.

(** [takes]: the same, but stopping for good at the first code point that is not accepted. *)
Inductive takes (enc : N -> list N) (cap : option nat) : list N -> list N -> list N -> Prop :=
| t_nil out : takes enc cap out [] out
| t_take out cp r o : accepts enc cap out cp -> takes enc cap (out ++ enc cp) r o ->
                      takes enc cap out (cp :: r) o
| t_stop out cp r : ~ accepts enc cap out cp -> takes enc cap out (cp :: r) out.
