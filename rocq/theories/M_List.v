(** Model of List<T>, templates/detachable_list.h and detachable_list_util.h.
    [ListNoCopy] is the same text without copying.

    A world is the node memory plus any number of lists sharing it.  [new]
    takes the address chosen by the allocator; using an address that already
    holds a node is treated as undefined (the allocator never does it).
    Simplifications: NumNodes is an unbounded number (it counts nodes in
    memory, so size_t cannot overflow); copying a T has no other effect. *)
From Verif Require Import Base S_Seq M_Dll.

Record lst := Lst { ends_ : ends; num : N }.
Record world (V : Type) := World
  { alive : nat -> bool; lnk : links; vl : nat -> option V; lists : nat -> lst }.
Arguments World {V}. Arguments alive {V}. Arguments lnk {V}. Arguments vl {V}. Arguments lists {V}.

Section M.
Context {V : Type}.
Implicit Types w : world V.

(** List() at detachable_list_util.h:17-24: every list starts empty. *)
Definition empty_list : lst := Lst (Ends 0 0) 0.
Definition init : world V :=
  World (fun _ => false) (Links (fun _ => 0) (fun _ => 0)) (fun _ => None) (fun _ => empty_list).

Definition set_list w i l := World (alive w) (lnk w) (vl w) (fupd (lists w) i l).
Definition set_links w L := World (alive w) L (vl w) (lists w).

(** ListNode() at detachable_list.h:21-24 followed by Value = v;
    CreateNode, detachable_list_util.h:144-155. *)
Definition new w (v : option V) (a : nat) : res (world V) :=
  if (Nat.eqb a 0 || alive w a)%bool then UB
  else Ok (World (fupd (alive w) a true)
                 (Links (fupd (nx (lnk w)) a 0) (fupd (pv (lnk w)) a 0))
                 (fupd (vl w) a v) (lists w)).

(** delete Node; links and values of the dead node keep their bits. *)
Definition delete w (x : nat) : res (world V) :=
  if alive w x then Ok (World (fupd (alive w) x false) (lnk w) (fupd (vl w) x None) (lists w)) else UB.

Definition next_of w x : res nat := getf (alive w) (nx (lnk w)) x.
Definition prev_of w x : res nat := getf (alive w) (pv (lnk w)) x.

(** detachable_list_util.h:188-205: the part of InsertBefore after the test for neighbours. *)
Definition attach_before w i pos x : res (world V * nat) :=
  let l := lists w i in
  let* (L, E) := link_before (alive w) (lnk w) (ends_ l) pos x in
  Ok (set_list (set_links w L) i (Lst E (num l + 1)), x).

(** detachable_list_util.h:239-256. *)
Definition attach_after w i pos x : res (world V * nat) :=
  let l := lists w i in
  let* (L, E) := link_after (alive w) (lnk w) (ends_ l) pos x in
  Ok (set_list (set_links w L) i (Lst E (num l + 1)), x).

(** detachable_list_util.h:184-206. *)
Definition insert_before w i pos x : res (world V * nat) :=
  let* n := next_of w x in
  if negb (Nat.eqb n 0) then Ok (w, 0) else
  let* p := prev_of w x in
  if negb (Nat.eqb p 0) then Ok (w, 0) else attach_before w i pos x.

(** detachable_list_util.h:235-257. *)
Definition insert_after w i pos x : res (world V * nat) :=
  let* n := next_of w x in
  if negb (Nat.eqb n 0) then Ok (w, 0) else
  let* p := prev_of w x in
  if negb (Nat.eqb p 0) then Ok (w, 0) else attach_after w i pos x.

(** detachable_list_util.h:157-181 and 208-232. *)
Definition insert_before_value w i pos v a := let* w1 := new w v a in attach_before w1 i pos a.
Definition insert_after_value w i pos v a := let* w1 := new w v a in attach_after w1 i pos a.

(** detachable_list_util.h:286-314. *)
Definition detach w i x : res (world V * nat) :=
  if Nat.eqb x 0 then Ok (w, 0) else
  let l := lists w i in
  let* (L, E) := unlink (alive w) (lnk w) (ends_ l) x in
  Ok (set_list (set_links w L) i (Lst E (num l - 1)), 1).

(** detachable_list_util.h:316-323. *)
Definition remove w i x : res (world V * nat) :=
  let* (w1, r) := detach w i x in
  if Nat.eqb r 0 then Ok (w1, 0) else let* w2 := delete w1 x in Ok (w2, 1).

(** detachable_list_util.h:117-123 and 136-142. *)
Definition pop w i : res (world V * nat) :=
  let x := tl_ (ends_ (lists w i)) in let* (w1, _) := detach w i x in Ok (w1, x).
Definition shift w i : res (world V * nat) :=
  let x := hd_ (ends_ (lists w i)) in let* (w1, _) := detach w i x in Ok (w1, x).

(** detachable_list_util.h:325-329. *)
Fixpoint empty_loop (fuel : nat) w i : res (world V) :=
  if Nat.eqb (hd_ (ends_ (lists w i))) 0 then Ok w else
  match fuel with
  | O => Fuel
  | S f => let* (w1, _) := remove w i (hd_ (ends_ (lists w i))) in empty_loop f w1 i
  end.
Definition empty w i : res (world V) :=
  let* w1 := empty_loop (N.to_nat (num (lists w i))) w i in
  Ok (set_list w1 i (Lst (ends_ (lists w1 i)) 0)).

(** detachable_list_util.h:260-284. *)
Definition detach_all_and_append w i j : res (world V) :=
  let lj := lists w j in
  if Nat.eqb (hd_ (ends_ lj)) 0 then Ok w else
  let li := lists w i in
  let* w1 :=
    if negb (Nat.eqb (tl_ (ends_ li)) 0) then
      let* nx1 := setf (alive w) (nx (lnk w)) (tl_ (ends_ li)) (hd_ (ends_ lj)) in
      let* pv1 := setf (alive w) (pv (lnk w)) (hd_ (ends_ lj)) (tl_ (ends_ li)) in
      Ok (set_list (set_links w (Links nx1 pv1)) i
            (Lst (Ends (hd_ (ends_ li)) (tl_ (ends_ lj))) (num li)))
    else Ok (set_list w i (Lst (ends_ lj) (num li))) in
  let l1 := lists w1 i in
  let w2 := set_list w1 i (Lst (ends_ l1) (num l1 + num (lists w1 j))) in
  Ok (set_list w2 j empty_list).

(** detachable_list_util.h:72-77 (and 58-63): append a fresh node for every
    node from [p] on.  [fresh] lists the allocator's answers. *)
Fixpoint copy_loop w i (p : nat) (fresh : list nat) : res (world V) :=
  if Nat.eqb p 0 then Ok w else
  match fresh with
  | [] => Fuel
  | a :: fr =>
      let* v := getf (alive w) (vl w) p in
      let* (w1, _) := insert_before_value w i 0 v a in
      let* n := next_of w1 p in
      copy_loop w1 i n fr
  end.

(** detachable_list_util.h:66-81.  The copy constructor (52-64) is the case
    of a list [i] that is still empty. *)
Definition assign w i j fresh : res (world V) :=
  if Nat.eqb i j then Ok w else
  let* w1 := empty w i in copy_loop w1 i (hd_ (ends_ (lists w1 j))) fresh.

(** One call.  Push and operator+= are InsertBefore(NULL, .), Unshift is
    InsertAfter(NULL, .), detachable_list_util.h:84-134. *)
Definition exec w (c : call V) : res (world V * nat) :=
  match c with
  | CreateNode v a => let* w1 := new w (Some v) a in Ok (w1, a)
  | DeleteNode x => let* w1 := delete w x in Ok (w1, 0)
  | InsertBeforeV i pos v a => insert_before_value w i pos (Some v) a
  | InsertBeforeN i pos x => insert_before w i pos x
  | InsertAfterV i pos v a => insert_after_value w i pos (Some v) a
  | InsertAfterN i pos x => insert_after w i pos x
  | Detach i x => detach w i x
  | Remove i x => remove w i x
  | Pop i => pop w i
  | Shift i => shift w i
  | Empty i => let* w1 := empty w i in Ok (w1, 0)
  | DetachAllAndAppend i j => let* w1 := detach_all_and_append w i j in Ok (w1, 0)
  | Assign i j fresh => let* w1 := assign w i j fresh in Ok (w1, 0)
  end.

Fixpoint run w (cs : list (call V)) : res (world V * list nat) :=
  match cs with
  | [] => Ok (w, [])
  | c :: r => let* (w1, x) := exec w c in let* (w2, xs) := run w1 r in Ok (w2, x :: xs)
  end.

(** What a caller sees: for (Node = First(); Node != NULL; Node = Node->Next()),
    and the same with Last() and Prev(); [n] bounds the number of steps. *)
Fixpoint walk (step : nat -> res nat) (n : nat) (p : nat) : res (list nat) :=
  if Nat.eqb p 0 then Ok [] else
  match n with
  | O => Fuel
  | S m => let* q := step p in let* r := walk step m q in Ok (p :: r)
  end.
Definition walk_forward w i n := walk (next_of w) n (hd_ (ends_ (lists w i))).
Definition walk_backward w i n := walk (prev_of w) n (tl_ (ends_ (lists w i))).
End M.
