(** Specification of opening a file by several objects.  Nothing here refers to the model. *)
From Verif Require Import Base.

Inductive access := RDONLY | WRONLY | RDWR.
Inductive share := ShareNone | ShareRead | ShareWrite | ShareBoth.
(** O_CREAT, O_EXCL, O_TRUNC; [None] as the access: both bits of O_ACCMODE. *)
Record flags := Flags { f_acc : option access; f_creat : bool; f_excl : bool; f_trunc : bool }.

(** Contents of the file ([None]: there is none) after opening it; [None]: it may not be opened. *)
Definition meant (fl : flags) (old : option bytes) : option bytes :=
  match old with
  | None => if f_creat fl then Some [] else None
  | Some c => if f_creat fl && f_excl fl then None else Some (if f_trunc fl then [] else c)
  end.

Definition reading (a : access) : Prop := a <> WRONLY.
Definition writing (a : access) : Prop := a <> RDONLY.
(** What the others may do. *)
Definition lets (s : share) (a : access) : Prop :=
  (reading a -> s = ShareRead \/ s = ShareBoth) /\ (writing a -> s = ShareWrite \/ s = ShareBoth).
(** Two openings may exist at the same time. *)
Definition together (x y : access * share) : Prop := lets (snd x) (fst y) /\ lets (snd y) (fst x).
