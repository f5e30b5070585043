(** Model of templates/static_vector.h over a heap of arrays. *)
From Verif Require Import Base S_Seq S_Vec.

Section Vec.
Variable T : Type.
Variable d : T.

(** The heap of arrays made by new T[n]: block numbers to contents; 0 is NULL.
    new never fails (it throws in C++; not modelled) and never returns a live
    block.  Elements start as [d], the default constructed T (for T without a
    constructor they are indeterminate; the theorems hold for every [d]). *)
Record heap := Heap { blk : nat -> option (list T); nxt : nat }.
Definition alloc (n : nat) (h : heap) : nat * heap :=
  (nxt h, Heap (fupd (blk h) (nxt h) (Some (repeat d n))) (S (nxt h))).
(** delete[] of a block that is not live is undefined. *)
Definition dealloc (p : nat) (h : heap) : res heap :=
  match blk h p with Some _ => Ok (Heap (fupd (blk h) p None) (nxt h)) | None => UB end.
Definition ld (p i : nat) (h : heap) : res T :=
  match blk h p with Some l => rd l i | None => UB end.
Definition st (p i : nat) (v : T) (h : heap) : res heap :=
  match blk h p with
  | Some l => let* l' := wr l i v in Ok (Heap (fupd (blk h) p (Some l')) (nxt h))
  | None => UB
  end.

(** An object: lines 80-81 (ptr, Size). *)
Definition obj := (nat * nat)%type.
Definition objs := nat -> option obj.
Definition world := (objs * heap)%type.

(** for (x = x0; x < x0 + n; x++)  dst[x] = src[x]; (lines 29, 46) *)
Fixpoint copy_loop (n x dst src : nat) (h : heap) : res heap :=
  match n with
  | O => Ok h
  | S k => let* v := ld src x h in let* h := st dst x v h in copy_loop k (S x) dst src h
  end.

(** Constructor, lines 13-17. *)
Definition m_new (x n : nat) (w : world) : res world :=
  let '(o, h) := w in
  let '(p, h) := alloc n h in
  Ok (fupd o x (Some (p, n)), h).
(** Copy constructor, lines 25-30. *)
Definition m_copy (x y : nat) (w : world) : res world :=
  let '(o, h) := w in
  match o y with
  | None => UB
  | Some (q, n) =>
      let '(p, h) := alloc n h in
      let* h := copy_loop n 0 p q h in
      Ok (fupd o x (Some (p, n)), h)
  end.
(** operator=, lines 33-50. [zero_null]: a new size of zero gives NULL (line
    42); the cache's operator= (cache_util.h lines 47-65) allocates instead. *)
Definition m_assign (zero_null : bool) (x y : nat) (w : world) : res world :=
  let '(o, h) := w in
  match o x, o y with
  | Some (p, n), Some (q, m) =>
      if x =? y then Ok w
      else
        let* (p, h) :=
          (if n =? m then Ok (p, h)
           else let* h := (if p =? 0 then Ok h else dealloc p h) in
                if zero_null && (m =? 0) then Ok (0, h) else Ok (alloc m h)) in
        let* h := copy_loop m 0 p q h in
        Ok (fupd o x (Some (p, m)), h)
  | _, _ => UB
  end.
(** operator[] as an assignment target, line 56. *)
Definition m_write (x i : nat) (v : T) (w : world) : res world :=
  let '(o, h) := w in
  match o x with Some (p, _) => let* h := st p i v h in Ok (o, h) | None => UB end.
(** Destructor, lines 19-22. *)
Definition m_delete (x : nat) (w : world) : res world :=
  let '(o, h) := w in
  match o x with
  | Some (p, _) => let* h := (if p =? 0 then Ok h else dealloc p h) in Ok (fupd o x None, h)
  | None => UB
  end.

Definition mstep (c : vop T) (w : world) : res world :=
  match c with
  | VNew x n => m_new x n w
  | VCopy x y => m_copy x y w
  | VAssign x y => m_assign true x y w
  | VWrite x i v => m_write x i v w
  | VDelete x => m_delete x w
  end.
Fixpoint mrun (h : list (vop T)) (w : world) : res world :=
  match h with [] => Ok w | c :: t => let* w := mstep c w in mrun t w end.
Definition winit : world := (fun _ => None, Heap (fun _ => None) 1).

(** GetSize, line 52. *)
Definition m_size (x : nat) (w : world) : res nat :=
  match fst w x with Some (_, n) => Ok n | None => UB end.
(** operator[] as a value, line 56. *)
Definition m_read (x i : nat) (w : world) : res T :=
  match fst w x with Some (p, _) => ld p i (snd w) | None => UB end.
(** operator==, lines 62-71. *)
Variable eqT : T -> T -> bool.
Fixpoint eq_loop (n x p q : nat) (h : heap) : res bool :=
  match n with
  | O => Ok true
  | S k => let* a := ld p x h in let* b := ld q x h in if eqT a b then eq_loop k (S x) p q h else Ok false
  end.
Definition m_eq (x y : nat) (w : world) : res bool :=
  match fst w x, fst w y with
  | Some (p, n), Some (q, m) => if n =? m then eq_loop n 0 p q (snd w) else Ok false
  | _, _ => UB
  end.
End Vec.
Arguments Heap {T}. Arguments blk {T}. Arguments nxt {T}.
Arguments alloc {T}. Arguments dealloc {T}. Arguments ld {T}. Arguments st {T}.
Arguments copy_loop {T}. Arguments m_new {T}. Arguments m_copy {T}. Arguments m_assign {T}.
Arguments m_write {T}. Arguments m_delete {T}. Arguments mstep {T}. Arguments mrun {T}.
Arguments winit {T}. Arguments m_size {T}. Arguments m_read {T}. Arguments eq_loop {T}. Arguments m_eq {T}.
