(** Model of templates/cache_util.h and the node class of templates/cache.h
    (lines 13-23), over the heap of arrays of [M_Vec]. *)
From Verif Require Import Base S_Seq S_Vec M_Vec S_Cache.

Section Cache.
Variables K V : Type.
Variable eqK : K -> K -> bool.  (* XKey::operator== *)

(** CacheNode, cache.h lines 20-22. *)
Record node := Node { used : bool; nkey : K; nval : V }.
(** A new node: Used is false; Key and Value are [k0], [v0], what the default
    constructors leave there. *)
Variables (k0 : K) (v0 : V).
Definition fresh : node := Node false k0 v0.

(** Nodes[i] = f(Nodes[i]) of cache [x]. *)
Definition m_node (x i : nat) (f : node -> node) (w : world node) : res (world node) :=
  let* a := m_read x i w in m_write x i (f a) w.
(** HashKey % NumNodes: division by zero is undefined. *)
Definition m_slot (x h : nat) (w : world node) : res nat :=
  let* n := m_size x w in if n =? 0 then UB else Ok (h mod n).

(** Empty, lines 68-73. *)
Fixpoint empty_loop (n x i : nat) (w : world node) : res (world node) :=
  match n with
  | O => Ok w
  | S m => let* w := m_node x i (fun a => Node false (nkey a) (nval a)) w in empty_loop m x (S i) w
  end.
Definition m_empty (x : nat) (w : world node) : res (world node) :=
  let* n := m_size x w in empty_loop n x 0 w.
(** Insert, lines 75-82. *)
Definition m_insert (x h : nat) (k : K) (v : V) (w : world node) : res (world node) :=
  let* i := m_slot x h w in
  let* w := m_node x i (fun a => Node true (nkey a) (nval a)) w in
  let* w := m_node x i (fun a => Node (used a) k (nval a)) w in
  m_node x i (fun a => Node (used a) (nkey a) v) w.
(** Remove, lines 84-95. *)
Definition m_remove (x h : nat) (k : K) (w : world node) : res (bool * world node) :=
  let* i := m_slot x h w in
  let* a := m_read x i w in
  if used a && eqK (nkey a) k then
    let* w := m_node x i (fun a => Node false (nkey a) (nval a)) w in Ok (true, w)
  else Ok (false, w).
(** Exists, lines 97-102. *)
Definition m_exists (x h : nat) (k : K) (w : world node) : res bool :=
  let* i := m_slot x h w in
  let* a := m_read x i w in
  Ok (used a && eqK (nkey a) k).
(** Find, lines 104-115; [r] is Result before the call. *)
Definition m_find (x h : nat) (k : K) (r : V) (w : world node) : res (bool * V) :=
  let* i := m_slot x h w in
  let* a := m_read x i w in
  if used a && eqK (nkey a) k then Ok (true, nval a) else Ok (false, r).

(** Constructor (lines 17-23), copy constructor (38-45), operator= (47-65) and
    destructor (26-32) are the vector's, except that operator= always allocates. *)
Definition mcstep (o : cop K V) (w : world node) : res (world node) :=
  match o with
  | CNew x n => m_new fresh x n w
  | CCopy x y => m_copy fresh x y w
  | CAssign x y => m_assign fresh false x y w
  | CDelete x => m_delete x w
  | CInsert x h k v => m_insert x h k v w
  | CRemove x h k => let* (_, w) := m_remove x h k w in Ok w
  | CEmpty x => m_empty x w
  end.
Fixpoint mcrun (p : list (cop K V)) (w : world node) : res (world node) :=
  match p with [] => Ok w | o :: t => let* w := mcstep o w in mcrun t w end.
End Cache.
Arguments Node {K V}. Arguments used {K V}. Arguments nkey {K V}. Arguments nval {K V}. Arguments fresh {K V}.
Arguments m_node {K V}. Arguments m_slot {K V}. Arguments empty_loop {K V}. Arguments m_empty {K V}.
Arguments m_insert {K V}. Arguments m_remove {K V}. Arguments m_exists {K V}. Arguments m_find {K V}.
Arguments mcstep {K V}. Arguments mcrun {K V}.
