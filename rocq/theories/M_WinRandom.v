(** Model of security/security_csprng.cpp, Windows part (lines 12-27).  Definitions only. *)
From Verif Require Import Base.
Open Scope N_scope.

(** security/security_csprng.cpp:22-27 — CSPRNG::GetBytes.  [gen] is MxRtlGenRandom, None when
    lines 14-16 did not find it; asked for [n] bytes it delivers them, or None for FALSE.  [data]
    is the caller's block of Size bytes.  Line 26: a ULONG has 32 bits, a size_t may have 64. *)
Definition WGetBytes (gen : option (N -> option bytes)) (data : bytes) : res (bytes * bool) :=
  match gen with
  | None => Ok (data, false)
  | Some g =>
      match g (N.of_nat (length data) mod 2 ^ 32) with
      | None => Ok (data, false)
      | Some r => let* d := blit data 0 r in Ok (d, true)
      end
  end.
