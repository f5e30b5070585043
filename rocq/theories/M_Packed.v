(** Model of PackedOrderedHash<T>, templates/packed_ordered_hash.h and
    packed_ordered_hash_util.h ([PackedOrderedHashNoCopy] is the same text
    without copying).

    ArrayNodes is a list of its constructed nodes, so its length is
    NextNodePos; the capacity is NumNodes.  HashNodes is a list of 32-bit
    indexes of length NumNodes.  A node pointer is the node's position.  A node
    is moved by memcpy as a whole.  StrKey is [None] for NULL or the bytes it
    points to (GetStrLen is their number).  IntKey is the 64-bit pattern.
    GetHashKey (lines 443-446) is an arbitrary function of the hashed bytes
    with 64-bit results (only the low 32 bits choose a slot).  NumNodes,
    NextNodePos and NumUsed are unbounded naturals; the four Compact/Resize
    thresholds, set at lines 521-524 whenever NumNodes is, are computed from
    NumNodes.  [new] never fails; memory is not reclaimed. *)
From Verif Require Import Base S_Hash S_Packed.

(** The index 0xFFFFFFFF: no node. *)
Definition NIL : N := 4294967295.

Record pnode (V : Type) := PNode
  { pprev : N; pnext : N; pint : N; pstr : option bytes; pval : option V }.
Arguments PNode {V}. Arguments pprev {V}. Arguments pnext {V}. Arguments pint {V}. Arguments pstr {V}. Arguments pval {V}.

(** Members, lines 529-538. *)
Record pobj (V : Type) := PObj
  { phfn : bytes -> N; parr : list (pnode V); phash : list N; pnum : nat (* NumNodes *); pused : nat (* NumUsed *) }.
Arguments PObj {V}. Arguments phfn {V}. Arguments parr {V}. Arguments phash {V}. Arguments pnum {V}. Arguments pused {V}.

(** The 64-bit pattern of an integer key and its bytes in memory. *)
Definition pat (z : Z) : N := Z.to_N (z mod 2 ^ 64).
Definition pat_bytes (u : N) : bytes := map (fun i => N.modulo (N.shiftr u (8 * N.of_nat i)) 256) (seq 0 8).

Section M.
Context {V : Type}.
Context (dflt : V).
Implicit Types s : pobj V.

Definition set_prev (x : N) (n : pnode V) := PNode x (pnext n) (pint n) (pstr n) (pval n).
Definition set_next (x : N) (n : pnode V) := PNode (pprev n) x (pint n) (pstr n) (pval n).
Definition set_val (x : option V) (n : pnode V) := PNode (pprev n) (pnext n) (pint n) (pstr n) x.

(** Change one node. *)
Definition modify (a : list (pnode V)) (p : nat) (f : pnode V -> pnode V) : res (list (pnode V)) :=
  let* n := rd a p in wr a p (f n).

(** (uint32_t)HashKey & Mask, lines 200, 239, 450, 464, 501. *)
Definition hashpos (h : N) (size : nat) : nat := N.to_nat (N.land (w32 h) (w32 (N.of_nat size - 1))).

(** Lines 450-458 and 464-472. *)
Fixpoint pfind_loop (fuel : nat) (a : list (pnode V)) (test : pnode V -> bool) (p : N) : res (option nat) :=
  if N.eqb p NIL then Ok None else
  match fuel with
  | O => Fuel
  | S f =>
      let* n := rd a (N.to_nat p) in
      if test n then Ok (Some (N.to_nat p)) else pfind_loop f a test (pnext n)
  end.

(** The comparisons of lines 453 and 467. *)
Definition ptest (k : key) (h : N) (n : pnode V) : bool :=
  match k with
  | KInt z => N.eqb (pint n) (pat z) && match pstr n with None => true | Some _ => false end
  | KStr b => N.eqb (pint n) h &&
      match pstr n with
      | Some b' => Nat.eqb (length b) (length b') && (if list_eq_dec N.eq_dec b b' then true else false)
      | None => false
      end
  end.

(** InternalFind, lines 448-473, with Find at 310-335. *)
Definition pfind s (k : key) : res (option nat) :=
  let h := phfn s (key_bytes k) in
  let* p := rd (phash s) (hashpos h (pnum s)) in
  pfind_loop (length (parr s)) (parr s) (ptest k h) p.

(** Lines 200-207 (and 239-251, 501-505): append a node at position
    [length a] and attach it at the front of its chain.  [i], [b], [v] are its
    IntKey, StrKey and Value. *)
Definition attach_new (a : list (pnode V)) (H : list N) (size : nat) (h i : N) (b : option bytes) (v : option V)
  : res (list (pnode V) * list N) :=
  if length a <? size then
    let pos := w32 (N.of_nat (length a)) in
    let hp := hashpos h size in
    let* first := rd H hp in
    let a1 := a ++ [PNode (N.lor 2147483648 (N.of_nat hp)) first i b v] in
    let* a2 := if N.eqb first NIL then Ok a1 else modify a1 (N.to_nat first) (set_prev pos) in
    let* H1 := wr H hp pos in
    Ok (a2, H1)
  else UB.

(** Lines 433 and 477: while (m < n)  m <<= 1. *)
Fixpoint grow (fuel m n : nat) : res nat :=
  if m <? n then match fuel with O => Fuel | S f => grow f (2 * m) n end else Ok m.

(** Lines 491-512: copy the nodes that are set. *)
Fixpoint rebuild (hf : bytes -> N) (old : list (pnode V)) (a : list (pnode V)) (H : list N) (size : nat)
  : res (list (pnode V) * list N) :=
  match old with
  | [] => Ok (a, H)
  | n :: r =>
      if N.eqb (pprev n) NIL then rebuild hf r a H size
      else
        let h := match pstr n with Some _ => pint n | None => hf (pat_bytes (pint n)) end in
        let* (a1, H1) := attach_new a H size h (pint n) (pstr n) (pval n) in
        rebuild hf r a1 H1 size
  end.

(** InternalResizeHash, lines 475-527. *)
Definition presize_to s (n : nat) : res (pobj V * bool) :=
  let* size := grow (pused s) n (pused s) in
  if (Nat.eqb size (pnum s) || ((size <? 512) && (size <? pnum s)))%bool then Ok (s, false)
  else
    let* (a, H) := rebuild (phfn s) (parr s) [] (repeat NIL size) size in
    Ok (PObj (phfn s) (firstn (pused s) a) H size (pused s), true).

(** ResizeHash, lines 430-436. *)
Definition presize s (n : nat) : res (pobj V * bool) := let* size := grow n 1 n in presize_to s size.

(** The constructors, lines 25-45: ResizeHash on an object without nodes. *)
Definition pinit (hf : bytes -> N) (n : nat) : res (pobj V) :=
  let* (s, _) := presize (PObj hf [] [] 0 0) n in Ok s.

(** Lines 390-396: copy the node [n] to position x and redirect what points to it. *)
Definition move_node (a : list (pnode V)) (H : list N) (x : nat) (n : pnode V) : res (list (pnode V) * list N) :=
  let x32 := w32 (N.of_nat x) in
  let* a1 := wr a x n in
  let* (a2, H2) :=
    if N.eqb (N.land (pprev n) 2147483648) 0
    then let* a2 := modify a1 (N.to_nat (pprev n)) (set_next x32) in Ok (a2, H)
    else let* H2 := wr H (N.to_nat (N.land (pprev n) 2147483647)) x32 in Ok (a1, H2) in
  let* n2 := rd a2 x in
  let* a3 := if N.eqb (pnext n2) NIL then Ok a2 else modify a2 (N.to_nat (pnext n2)) (set_prev x32) in
  Ok (a3, H2).

(** Lines 385-401: move the set nodes from y on to x and up. *)
Fixpoint opt_loop (cnt : nat) (a : list (pnode V)) (H : list N) (x y : nat) : res (list (pnode V) * list N * nat) :=
  match cnt with
  | O => Ok (a, H, x)
  | S c =>
      let* n := rd a y in
      if N.eqb (pprev n) NIL then opt_loop c a H x (S y)
      else let* (a1, H1) := move_node a H x n in opt_loop c a1 H1 (S x) (S y)
  end.

(** Line 381: the first unset position. *)
Fixpoint first_unset (a : list (pnode V)) : nat :=
  match a with
  | [] => 0
  | n :: r => if N.eqb (pprev n) NIL then 0 else S (first_unset r)
  end.

(** Lines 404-408. *)
Definition wipe (n : pnode V) : pnode V := PNode NIL (pnext n) (pint n) None (pval n).

(** Optimize, lines 375-413. *)
Definition poptimize s : res (pobj V * bool) :=
  if Nat.eqb (length (parr s)) (pused s) then Ok (s, true)
  else
    let x := first_unset (parr s) in
    let* (t, x1) := opt_loop (length (parr s) - S x) (parr s) (phash s) x (S x) in
    let (a, H) := t in
    let a1 := firstn x1 a ++ map wipe (skipn x1 a) in
    Ok (PObj (phfn s) (firstn (pused s) a1) H (pnum s) (pused s), true).

(** AutoResizeHash, lines 421-428, with the thresholds of lines 523-524. *)
Definition pauto s : res (pobj V * bool) :=
  if pused s <? pnum s - pnum s / 10 then poptimize s
  else if pused s <? (8 * pnum s) / 10 then presize_to s (pnum s / 2)
  else if Nat.eqb (length (parr s)) (pnum s) then presize_to s (2 * pnum s)
  else Ok (s, false).

(** Set(key), lines 183-212 and 222-256. *)
Definition ptouch s (k : key) : res (pobj V * nat) :=
  let* f := pfind s k in
  match f with
  | Some p => Ok (s, p)
  | None =>
      let h := phfn s (key_bytes k) in
      let* (s1, _) := if Nat.eqb (length (parr s)) (pnum s) then pauto s else Ok (s, false) in
      let pos := length (parr s1) in
      let* (a, H) := attach_new (parr s1) (phash s1) (pnum s1) h
                       (match k with KInt z => pat z | KStr _ => h end)
                       (match k with KInt _ => None | KStr b => Some b end) (Some dflt) in
      Ok (PObj (phfn s1) a H (pnum s1) (S (pused s1)), pos)
  end.

(** Set(key, value), lines 214-220 and 258-264. *)
Definition pset s (k : key) (v : V) : res (pobj V * nat) :=
  let* (s1, p) := ptouch s k in
  let* a := modify (parr s1) p (set_val (Some v)) in
  Ok (PObj (phfn s1) a (phash s1) (pnum s1) (pused s1), p).

(** Lines 281-284: take the node out of its chain. *)
Definition unlink_node (a : list (pnode V)) (H : list N) (p : nat) : res (list (pnode V) * list N) :=
  let* n := rd a p in
  let* a1 := if N.eqb (pnext n) NIL then Ok a else modify a (N.to_nat (pnext n)) (set_prev (pprev n)) in
  let* n1 := rd a1 p in
  if N.eqb (N.land (pprev n1) 2147483648) 0
  then let* a2 := modify a1 (N.to_nat (pprev n1)) (set_next (pnext n1)) in Ok (a2, H)
  else let* H2 := wr H (N.to_nat (N.land (pprev n1) 2147483647)) (pnext n1) in Ok (a1, H2).

(** Unset(node), lines 276-298. *)
Definition punset s (o : option nat) : res (pobj V * bool) :=
  match o with
  | None => Ok (s, false)
  | Some p =>
      let* n := rd (parr s) p in
      if N.eqb (pprev n) NIL then Ok (s, false)
      else
        let* (a1, H) := unlink_node (parr s) (phash s) p in
        let* a2 := modify a1 p (fun m => PNode NIL (pnext m) (pint m) None None) in
        if Nat.eqb (pused s) 0 then UB else
        Ok (PObj (phfn s) a2 H (pnum s) (pused s - 1), true)
  end.

Definition set_at s p : bool :=
  match nth_error (parr s) p with Some n => negb (N.eqb (pprev n) NIL) | None => false end.

(** Get, lines 301-304. *)
Definition pget s p : option nat := if (length (parr s) <=? p) || negb (set_at s p) then None else Some p.

(** Next, lines 338-349. *)
Fixpoint next_loop (cnt : nat) s (p : nat) : option nat * nat :=
  match cnt with
  | O => (None, p)
  | S c => if set_at s p then (Some p, p) else next_loop c s (S p)
  end.
Definition pnext_pos s (p : nat) : option nat * nat :=
  let n := length (parr s) in
  let q := if n <=? p then 0 else S p in
  next_loop (n - q) s q.

(** Prev, lines 352-366. *)
Fixpoint prev_loop s (p : nat) : option nat * nat :=
  match p with
  | O => (None, length (parr s))
  | S q => if set_at s q then (Some q, q) else prev_loop s q
  end.
Definition pprev_pos s (p : nat) : option nat * nat :=
  prev_loop s (if length (parr s) <? p then length (parr s) else p).

Definition pexec s (c : pcall V) : res (pobj V * pret) :=
  match c with
  | PSet k v => let* (s1, p) := pset s k v in Ok (s1, RNode (Some p))
  | PTouch k => let* (s1, p) := ptouch s k in Ok (s1, RNode (Some p))
  | PUnset k => let* f := pfind s k in let* (s1, b) := punset s f in Ok (s1, RBool b)
  | PUnsetAt p => let* (s1, b) := punset s (Some p) in Ok (s1, RBool b)
  | POptimize => let* (s1, b) := poptimize s in Ok (s1, RBool b)
  | PResize n => let* (s1, b) := presize s n in Ok (s1, RBool b)
  | PFind k => let* f := pfind s k in Ok (s, RNode f)
  | PGet p => Ok (s, RNode (pget s p))
  | PNext p => let (o, q) := pnext_pos s p in Ok (s, RIter o q)
  | PPrev p => let (o, q) := pprev_pos s p in Ok (s, RIter o q)
  end.

Fixpoint prun s (cs : list (pcall V)) : res (pobj V * list pret) :=
  match cs with
  | [] => Ok (s, [])
  | c :: r => let* (s1, x) := pexec s c in let* (s2, xs) := prun s1 r in Ok (s2, x :: xs)
  end.

(** The copy constructor, lines 72-114.  [Node] walks the source array and is
    compared with the end of the destination array; the source nodes are at
    addresses src + i * sz and that end is at dst + NextNodePos * sz.  Reading
    a node that was never constructed is undefined. *)
Fixpoint copy_loop (fuel : nat) (sz src dst_end : N) (src_nodes dst : list (pnode V)) (i : nat) : res (list (pnode V)) :=
  if N.eqb (src + N.of_nat i * sz) dst_end then Ok dst
  else
    let* n := rd src_nodes i in
    match fuel with
    | O => Fuel
    | S f => copy_loop f sz src dst_end src_nodes (dst ++ [n]) (S i)
    end.
Definition pcopy s (sz src dst : N) (fuel : nat) : res (pobj V) :=
  let* a := copy_loop fuel sz src (dst + N.of_nat (length (parr s)) * sz) (parr s) [] 0 in
  Ok (PObj (phfn s) a (phash s) (pnum s) (pused s)).

(** Reading the key (IntKey, StrKey) and the value of the node at a position. *)
Definition holds_at s (p : nat) (k : key) (v : V) : Prop :=
  exists n, nth_error (parr s) p = Some n /\ pval n = Some v /\
    match k with KInt z => pstr n = None /\ pint n = pat z | KStr b => pstr n = Some b end.

(** A caller's loop over Next or Prev: the positions visited and, if the loop
    ended with NULL, the final Pos. *)
Fixpoint pwalk (step : nat -> option nat * nat) (fuel : nat) (pos : nat) : list nat * option nat :=
  match fuel with
  | O => ([], None)
  | S f =>
      match step pos with
      | (None, q) => ([], Some q)
      | (Some p, q) => let (l, e) := pwalk step f q in (p :: l, e)
      end
  end.
End M.
