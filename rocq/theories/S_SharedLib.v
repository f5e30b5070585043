(** Specification of calls through the wrapper, in terms of what the system offers: a call
    succeeds exactly when the library can be opened and exports the function. *)
From Verif Require Import Base.

Inductive op :=
| OCall (f : nat) (args : list N)            (* Call *)
| OVoid (f : nat) (args : list N)            (* CallVoid *)
| OOnce (file name : N) (args : list N)      (* CallOnce *)
| OOnceVoid (file name : N) (args : list N). (* CallOnceVoid *)

(** The answer: false, or true with the function's value (none for the void calls). *)
Inductive answer := AFalse | ATrue (v : option N).

Section Spec.
Variable open : N -> option N.
Variable sym : N -> N -> option N.
Variable result : N -> list N -> N.
Variable file : nat -> N.
Variable home : nat -> nat.
Variable name : nat -> N.

Definition exported (fl nm : N) : option N :=
  match open fl with Some h => sym h nm | None => None end.

(** The function called by an operation, if any, and the answer. *)
Definition target (o : op) : option N :=
  match o with
  | OCall f _ | OVoid f _ => exported (file (home f)) (name f)
  | OOnce fl nm _ | OOnceVoid fl nm _ => exported fl nm
  end.
Definition arguments (o : op) : list N :=
  match o with OCall _ a | OVoid _ a | OOnce _ _ a | OOnceVoid _ _ a => a end.
Definition wanted (o : op) : answer :=
  match target o with
  | None => AFalse
  | Some p => ATrue (match o with OCall _ a | OOnce _ _ a => Some (result p a) | _ => None end)
  end.
Definition calls (p : list op) : list (N * list N) :=
  flat_map (fun o => match target o with Some q => [(q, arguments o)] | None => [] end) p.
End Spec.
