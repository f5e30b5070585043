(** Specification of a memory allocator as its client sees it: which blocks the client owns
    and what they contain.  Nothing here refers to the model. *)
From Verif Require Import Base S_Seq.

(** [live p = Some c]: the client owns block [p] of [length c] bytes with contents [c].
    [raw p = Some c]: the client owns the block [p] of the C library (from dup_malloc). *)
Record view := View { live : nat -> option bytes; raw : nat -> option bytes }.
Definition nothing : view := View (fun _ => None) (fun _ => None).

Inductive op :=
| KMalloc (n : nat)
| KRealloc (p n : nat) (cache : bool)
| KFree (p : nat) (cache : bool)
| KDup (p : nat) (cache : bool)
| KWrite (p i : nat) (v : N)
| KRead (p i : nat).
Inductive answer := APtr (p : option nat) | AByte (v : N) | ANone.

(** Not owned by the client in any way. *)
Definition unused (s : view) (p : nat) : Prop := live s p = None /\ raw s p = None.

(** The client's side of the contract: only blocks it owns, accesses inside the requested
    size, sizes up to 2^30. *)
Definition allowed (s : view) (o : op) : Prop :=
  match o with
  | KMalloc n => n <= 2 ^ 30
  | KRealloc p n _ => live s p <> None /\ n <= 2 ^ 30
  | KFree p _ | KDup p _ => live s p <> None
  | KWrite p i v => exists c, live s p = Some c /\ i < length c
  | KRead p i => exists c, live s p = Some c /\ i < length c
  end.

(** The allocator's side. *)
Inductive step (s : view) : op -> answer -> view -> Prop :=
| s_malloc0 : step s (KMalloc 0) (APtr None) s
| s_malloc n p c : 0 < n -> length c = n -> unused s p ->
    step s (KMalloc n) (APtr (Some p)) (View (fupd (live s) p (Some c)) (raw s))
| s_realloc0 p k : step s (KRealloc p 0 k) (APtr None) (View (fupd (live s) p None) (raw s))
| s_realloc p n k p' c c' : 0 < n -> live s p = Some c -> p' = p \/ unused s p' ->
    length c' = n -> firstn (Nat.min (length c) n) c' = firstn (Nat.min (length c) n) c ->
    step s (KRealloc p n k) (APtr (Some p')) (View (fupd (fupd (live s) p None) p' (Some c')) (raw s))
| s_free p k : step s (KFree p k) ANone (View (fupd (live s) p None) (raw s))
| s_dup p k p' c c' : live s p = Some c -> unused s p' -> firstn (length c) c' = c ->
    step s (KDup p k) (APtr (Some p')) (View (fupd (live s) p None) (fupd (raw s) p' (Some c')))
| s_write p i v c : live s p = Some c ->
    step s (KWrite p i v) ANone (View (fupd (live s) p (Some (upd c i v))) (raw s))
| s_read p i c v : live s p = Some c -> nth_error c i = Some v -> step s (KRead p i) (AByte v) s.
