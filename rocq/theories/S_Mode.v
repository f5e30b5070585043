(** Specification of the kind and the numbers of a variable in terms of what was done to it.
    Nothing here refers to the model. *)
From Verif Require Import Base.
Open Scope Z_scope.

(** The kinds IsNone, IsBool, IsInt, IsUInt, IsDouble and IsStr ask for. *)
Inductive mode := MNone | MBool | MInt | MUInt | MDouble | MStr.

Section Spec.
Variable D : Type. (* floating-point numbers *)

(** The operations on the variables, which are named by numbers. *)
Inductive nop :=
| OBool (x : nat) (b : bool)
| OInt (x : nat) (z : Z)
| OUInt (x : nat) (z : Z)
| ODouble (x : nat) (d : D)
| OSetText (x : nat)   (* SetStr, SetData, SetUTF8 *)
| OEditText (x : nat)  (* Prepend*, Append*, RemoveTrailingChar, SetSize, ReplaceData, ReplaceStr *)
| OAssign (x y : nat)  (* x = y *)
| OCopy (x y : nat) (text : bool)  (* x is constructed as a copy of y; [text]: y has a string *)
| ORenew (x : nat).    (* destroyed and constructed again *)

(** Where variable [x] has its contents from, reading a history backwards: through copies. *)
Definition about (o : nop) (x : nat) : Prop :=
  match o with
  | OBool y _ | OInt y _ | OUInt y _ | ODouble y _ | OSetText y | OEditText y | OAssign y _ | OCopy y _ _ | ORenew y => x = y
  end.
Definition from (o : nop) (x y : nat) : Prop :=
  match o with
  | OAssign a b => x = a /\ y = b
  | OCopy a b _ => x = a /\ y = b
  | _ => False
  end.

(** [last P h x r]: following [x] backwards through [h] (latest first) and through
    copies, [r] is the first operation on it that satisfies [P]; [None] if it was created
    first. *)
Inductive last (P : nop -> Prop) : list nop -> nat -> option nop -> Prop :=
| l_start x : last P [] x None
| l_here o h x : about o x -> P o -> last P (o :: h) x (Some o)
| l_new h x : last P (ORenew x :: h) x None
| l_copy o h x y r : from o x y -> last P h y r -> last P (o :: h) x r
| l_past o h x r : about o x -> ~ P o -> (forall y, ~ from o x y) -> o <> ORenew x -> last P h x r -> last P (o :: h) x r
| l_other o h x r : ~ about o x -> last P h x r -> last P (o :: h) x r.

Definition sets_kind (o : nop) : Prop :=
  match o with OBool _ _ | OInt _ _ | OUInt _ _ | ODouble _ _ | OSetText _ => True | _ => False end.
Definition puts_value (o : nop) : Prop := sets_kind o \/ match o with OEditText _ => True | _ => False end.
Definition sets_int (o : nop) : Prop :=
  match o with OBool _ _ | OInt _ _ | OUInt _ _ => True | _ => False end.
Definition sets_double (o : nop) : Prop := match o with ODouble _ _ => True | _ => False end.

Definition kind_of (r : option nop) : mode :=
  match r with
  | Some (OBool _ _) => MBool | Some (OInt _ _) => MInt | Some (OUInt _ _) => MUInt
  | Some (ODouble _ _) => MDouble | Some (OSetText _) => MStr | Some (OEditText _) => MStr
  | _ => MNone
  end.
(** The mathematical integer that was stored. *)
Definition int_of (r : option nop) : Z :=
  match r with
  | Some (OBool _ b) => if b then 1 else 0 | Some (OInt _ z) => z | Some (OUInt _ z) => z | _ => 0
  end.
Definition double_of (zero : D) (r : option nop) : D :=
  match r with Some (ODouble _ d) => d | _ => zero end.

(** Arguments in the range of their types. *)
Definition in_range (o : nop) : Prop :=
  match o with
  | OInt _ z => - 2^63 <= z < 2^63
  | OUInt _ z => 0 <= z < 2^64
  | _ => True
  end.
End Spec.
