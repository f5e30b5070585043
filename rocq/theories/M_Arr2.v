(** Model of templates/static_2d_array.h over the heap of arrays of [M_Vec].

    An array has three parts (lines 105-107): the dimensions, baseptr, and ptr.
    baseptr with its number of cells, and ptr with its number of rows, are
    objects of [M_Vec]; a row pointer is a pair of a block of cells and an offset. *)
From Verif Require Import Base S_Seq S_Vec M_Vec S_Arr2.

Section Arr.
Variable T : Type.
Variable d : T.

Definition dims := nat -> option (nat * nat).
Definition aworld := (dims * world T * world (nat * nat))%type.

(** Width * Height in size_t. *)
Definition prod64 (w h : nat) : nat := N.to_nat (w64 (N.of_nat w * N.of_nat h)).

(** for (x = 0; x < Height; x++)  ptr[x] = baseptr + (Width * x); *)
Fixpoint fill (n x r : nat) (base w : nat) (rows : world (nat * nat)) : res (world (nat * nat)) :=
  match n with
  | O => Ok rows
  | S m => let* rows := m_write x r (base, w * r) rows in fill m x (S r) base w rows
  end.
Definition base_of (x : nat) (b : world T) : nat := match fst b x with Some (p, _) => p | None => 0 end.

(** Constructor, lines 13-20. *)
Definition a_new (x w h : nat) (A : aworld) : res aworld :=
  let '(dm, b, r) := A in
  let* b := m_new d x (prod64 w h) b in
  let* r := m_new (0, 0) x h r in
  let* r := fill h x 0 (base_of x b) w r in
  Ok (fupd dm x (Some (w, h)), b, r).
(** Copy constructor, lines 29-40. *)
Definition a_copy (x y : nat) (A : aworld) : res aworld :=
  let '(dm, b, r) := A in
  match dm y with
  | None => UB
  | Some (w, h) =>
      let* b := m_copy d x y b in
      let* r := m_new (0, 0) x h r in
      let* r := fill h x 0 (base_of x b) w r in
      Ok (fupd dm x (Some (w, h)), b, r)
  end.
(** operator=, lines 43-74. *)
Definition a_assign (x y : nat) (A : aworld) : res aworld :=
  let '(dm, b, r) := A in
  match dm x, dm y with
  | Some (w, h), Some (w', h') =>
      if x =? y then Ok A
      else
        let* (b, r) :=
          (if (w =? w') && (h =? h') then Ok (b, r)
           else
             let* r := m_delete x r in
             let* b := m_delete x b in
             if negb (prod64 w' h' =? 0) then
               (* lines 56-60: both pointers NULL *)
               let '(bo, bh) := b in let '(ro, rh) := r in
               Ok ((fupd bo x (Some (0, prod64 w' h')), bh), (fupd ro x (Some (0, h')), rh))
             else
               let* b := m_new d x (prod64 w' h') b in
               let* r := m_new (0, 0) x h' r in
               let* r := fill h' x 0 (base_of x b) w' r in
               Ok (b, r)) in
        let* bh := copy_loop (prod64 w' h') 0 (base_of x b) (base_of y b) (snd b) in
        Ok (fupd dm x (Some (w', h')), (fst b, bh), r)
  | _, _ => UB
  end.
(** x[row][col] = v and the value of x[row][col], line 81. *)
Definition a_write (x j i : nat) (v : T) (A : aworld) : res aworld :=
  let '(dm, b, r) := A in
  let* (p, off) := m_read x j r in
  let* h := st p (off + i) v (snd b) in
  Ok (dm, (fst b, h), r).
Definition a_read (x j i : nat) (A : aworld) : res T :=
  let '(dm, b, r) := A in
  let* (p, off) := m_read x j r in
  ld p (off + i) (snd b).
(** Destructor, lines 22-26. *)
Definition a_delete (x : nat) (A : aworld) : res aworld :=
  let '(dm, b, r) := A in
  let* r := m_delete x r in
  let* b := m_delete x b in
  Ok (fupd dm x None, b, r).
(** GetWidth, GetHeight, lines 76-77. *)
Definition a_dims (x : nat) (A : aworld) : option (nat * nat) := let '(dm, _, _) := A in dm x.

Definition amstep (o : aop T) (A : aworld) : res aworld :=
  match o with
  | ANew x w h => a_new x w h A
  | ACopy x y => a_copy x y A
  | AAssign x y => a_assign x y A
  | AWrite x j i v => a_write x j i v A
  | ADelete x => a_delete x A
  end.
Fixpoint amrun (p : list (aop T)) (A : aworld) : res aworld :=
  match p with [] => Ok A | o :: t => let* A := amstep o A in amrun t A end.
Definition ainit : aworld := (fun _ => None, winit, winit).
End Arr.
Arguments fill : simpl never.
Arguments base_of {T}. Arguments a_new {T}. Arguments a_copy {T}. Arguments a_assign {T}. Arguments a_write {T}.
Arguments a_read {T}. Arguments a_delete {T}. Arguments a_dims {T}. Arguments amstep {T}. Arguments amrun {T}. Arguments ainit {T}.
