(** Model of the kind and the numbers of a mixed variable: templates/static_mixed_var.h:29-128
    and sync/sync_tls.h:102-211 with sync/sync_tls.cpp:250-308 (the same code, except for
    copies; the modes, static_mixed_var.h:14-22 and sync_tls.h:86-94, are [mode] of S_Mode), and SetUTF8 of utf8/utf8_mixed_var.h:30-34.  Definitions only.

    The text itself is the subject of M_MixedVar and M_TlsVar; here an operation on the text
    only says whether it sets the kind.  [D] is the type double, whose values are only stored
    and returned. *)
From Verif Require Import Base S_Mode.
Open Scope Z_scope.

(** Integers of 64 bits: the value kept by std::int64_t and the one given by the cast to
    std::uint64_t. *)
Definition to_int64 (z : Z) : Z := let m := z mod 2^64 in if m <? 2^63 then m else m - 2^64.
Definition to_uint64 (z : Z) : Z := z mod 2^64.

Section Mode.
Variable D : Type.
Variable zero : D.

(** static_mixed_var.h:30-32 — MxMode, MxInt, MxDouble *)
Record nvar := NVar { nmode : mode; nint : Z; ndbl : D }.

(** static_mixed_var.h:36-38, sync_tls.cpp:250-252 *)
Definition n_new : nvar := NVar MNone 0 zero.

(** static_mixed_var.h:41-89 *)
Definition IsMode (v : nvar) (m : mode) : bool :=
  match nmode v, m with
  | MNone, MNone | MBool, MBool | MInt, MInt | MUInt, MUInt | MDouble, MDouble | MStr, MStr => true
  | _, _ => false
  end.
Definition GetBool (v : nvar) : bool := negb (nint v =? 0).
Definition GetInt (v : nvar) : Z := nint v.
Definition GetUInt (v : nvar) : Z := to_uint64 (nint v).
Definition GetDouble (v : nvar) : D := ndbl v.

(** static_mixed_var.h:106-128 *)
Definition SetBool (v : nvar) (b : bool) : nvar := NVar MBool (if b then 1 else 0) (ndbl v).
Definition SetInt (v : nvar) (z : Z) : nvar := NVar MInt z (ndbl v).
Definition SetUInt (v : nvar) (z : Z) : nvar := NVar MUInt (to_int64 z) (ndbl v).
Definition SetDouble (v : nvar) (d : D) : nvar := NVar MDouble (nint v) d.

Definition nset (s : nat -> nvar) (x : nat) (v : nvar) : nat -> nvar := fun y => if (y =? x)%nat then v else s y.

(** sync_tls.cpp:260-298: a copy calls SetData for the string, which sets the kind, and then
    takes the kind and the numbers of the original. *)
Definition n_copy (v w : nvar) (text : bool) : nvar :=
  let v1 := if text then NVar MStr (nint v) (ndbl v) else v in
  let v2 := NVar (nmode w) (nint v1) (ndbl v1) in
  let v3 := NVar (nmode v2) (nint w) (ndbl v2) in
  NVar (nmode v3) (nint v3) (ndbl w).

Definition nexec (s : nat -> nvar) (o : nop D) : nat -> nvar :=
  match o with
  | OBool _ x b => nset s x (SetBool (s x) b)
  | OInt _ x z => nset s x (SetInt (s x) z)
  | OUInt _ x z => nset s x (SetUInt (s x) z)
  | ODouble _ x d => nset s x (SetDouble (s x) d)
  | OSetText _ x => nset s x (NVar MStr (nint (s x)) (ndbl (s x)))
  | OEditText _ x => s
  | OAssign _ x y => if (x =? y)%nat then s else nset s x (n_copy (s x) (s y) true)
  | OCopy _ x y text => nset s x (n_copy (s x) (s y) text)
  | ORenew _ x => nset s x n_new
  end.

Definition nrun (p : list (nop D)) : nat -> nvar := fold_left nexec p (fun _ => n_new).
End Mode.
