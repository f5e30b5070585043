(** Pieces of memory.  Nothing here refers to the model. *)
From Verif Require Import Base.
Open Scope N_scope.

(** [size] bytes at [at_]; the object there needs an address that is a multiple of [need]. *)
Record piece := Piece { at_ : N; size : N; need : N }.

Definition apart (p q : piece) : Prop := at_ p + size p <= at_ q \/ at_ q + size q <= at_ p.
(** No two pieces share a byte, and all lie in the first [n] bytes. *)
Definition laid_out (n : N) (ps : list piece) : Prop :=
  (forall i j p q, nth_error ps i = Some p -> nth_error ps j = Some q -> i <> j -> apart p q) /\
  (forall p, In p ps -> at_ p + size p <= n).
(** Every piece is where the hardware may require it to be, in memory that starts at [base]. *)
Definition well_placed (base : N) (ps : list piece) : Prop := forall p, In p ps -> (base + at_ p) mod need p = 0.

(** A call of SharedMem::Create: without a name; or the operating system gives no object or gives one
    (new or not), which can be mapped or not. *)
Inductive shm_call := ShmNoName | ShmCreate (got : option bool) (mapped : bool).
Definition succeeds (c : shm_call) : bool := match c with ShmCreate (Some _) true => true | _ => false end.
(** Whether the user of the object has to initialise it: the last Create that had a name made it. *)
Definition responsible (h : list shm_call) : bool :=
  fold_left (fun r c => match c with ShmNoName => r | ShmCreate (Some fresh) true => fresh | ShmCreate _ _ => false end) h false.
