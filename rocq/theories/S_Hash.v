(** Specification of the ordered hash: each container is a sequence of nodes
    with pairwise different keys.  Nothing here mentions chains or tables. *)
From Verif Require Import Base S_Seq.

Inductive key := KInt (z : Z) | KStr (s : bytes).

Definition key_eqb (a b : key) : bool :=
  match a, b with
  | KInt x, KInt y => Z.eqb x y
  | KStr x, KStr y => if list_eq_dec N.eq_dec x y then true else false
  | _, _ => false
  end.

(** The bytes that are hashed: a string key's own bytes, or the eight bytes of
    the 64-bit integer (little-endian two's complement). *)
Definition int_bytes (z : Z) : bytes :=
  let u := Z.to_N (z mod 2 ^ 64) in
  map (fun i => N.modulo (N.shiftr u (8 * N.of_nat i)) 256) (seq 0 8).
Definition key_bytes (k : key) : bytes := match k with KInt z => int_bytes z | KStr s => s end.

Inductive hcall (V : Type) : Type :=
| HCreate (k : key) (v : V) (a : nat)
| HDelete (x : nat)
| HSetKey (x : nat) (k : key)
| HInsertBeforeV (i pos : nat) (k : key) (v : V) (a : nat)
| HInsertBeforeN (i pos x : nat)
| HInsertAfterV (i pos : nat) (k : key) (v : V) (a : nat)
| HInsertAfterN (i pos x : nat)
| HDetach (i x : nat) (reset : bool)
| HRemove (i x : nat)
| HPop (i : nat) (reset : bool)
| HShift (i : nat) (reset : bool)
| HEmpty (i : nat) (delete_nodes reset : bool)
| HFind (i : nat) (k : key)
| HFindNode (i x : nat)
| HResize (i : nat) (size : nat).
Arguments HCreate {V}. Arguments HDelete {V}. Arguments HSetKey {V}.
Arguments HInsertBeforeV {V}. Arguments HInsertBeforeN {V}.
Arguments HInsertAfterV {V}. Arguments HInsertAfterN {V}.
Arguments HDetach {V}. Arguments HRemove {V}. Arguments HPop {V}. Arguments HShift {V}.
Arguments HEmpty {V}. Arguments HFind {V}. Arguments HFindNode {V}. Arguments HResize {V}.

(** Abstract state: the sequences, the nodes with their keys and values, the
    hash key each node carries along (0: none), and which nodes came out of
    Empty(false) and were not attached since. *)
Record habs (V : Type) : Type := HAbs
  { hseqs : nat -> list nat; node : nat -> option (key * V); carried : nat -> N; left : nat -> bool }.
Arguments HAbs {V}. Arguments hseqs {V}. Arguments node {V}. Arguments carried {V}. Arguments left {V}.

Section Spec.
Context {V : Type}.
(** The hash function of every container: any function at all. *)
Context (hash : nat -> bytes -> N).
Implicit Types A : habs V.

Definition has_key A k x := match node A x with Some (k', _) => key_eqb k' k | None => false end.
(** The node with key [k] in container [i], or 0. *)
Definition lookup A i k : nat := hd 0 (filter (has_key A k) (hseqs A i)).

Definition hexists A x := node A x <> None.
Definition hattached A x := exists i, In x (hseqs A i).
Definition hfree A a := a <> 0 /\ node A a = None.
Definition hposition A i pos := pos = 0 \/ In pos (hseqs A i).
(** The hash key a node carries was computed by the hash function of [i]. *)
Definition carried_ok A i x k := carried A x = 0%N \/ carried A x = hash i (key_bytes k).

Definition hset A i xs := HAbs (fupd (hseqs A) i xs) (node A) (carried A) (left A).
(** A node attached to container [i]: its hash key is now cached. *)
Definition attach A i xs x k :=
  HAbs (fupd (hseqs A) i xs) (node A) (fupd (carried A) x (hash i (key_bytes k))) (fupd (left A) x false).
(** Only the hash key cached. *)
Definition cached A i x k :=
  HAbs (hseqs A) (node A) (fupd (carried A) x (hash i (key_bytes k))) (left A).
Definition fresh_node A a k v :=
  HAbs (hseqs A) (fupd (node A) a (Some (k, v))) (fupd (carried A) a 0%N) (fupd (left A) a false).
Definition uncache (reset : bool) (x : nat) (c : nat -> N) := if reset then fupd c x 0%N else c.
Definition detached A i x reset :=
  HAbs (fupd (hseqs A) i (without x (hseqs A i))) (node A) (uncache reset x (carried A)) (left A).
Definition drop_node (xs : list nat) (f : nat -> option (key * V)) := fun y => if existsb (Nat.eqb y) xs then None else f y.
Definition mark {B} (xs : list nat) (b : B) (f : nat -> B) := fun y => if existsb (Nat.eqb y) xs then b else f y.

(** [hstep A c A' r]: call [c] obeys the rules in [A], leads to [A'] and
    returns [r].  The rules: inserted nodes are detached, carry no foreign
    hash key, and nodes left over from Empty(false) are only inserted next to
    a node (never at an end); positions belong to the container; keys of
    attached nodes are not changed. *)
Inductive hstep : habs V -> hcall V -> habs V -> nat -> Prop :=
| H_Create A k v a : hfree A a -> hstep A (HCreate k v a) (fresh_node A a k v) a
| H_Delete A x : hexists A x -> ~ hattached A x ->
    hstep A (HDelete x) (HAbs (hseqs A) (fupd (node A) x None) (carried A) (left A)) 0
| H_SetKey A x k k0 v : node A x = Some (k0, v) -> ~ hattached A x ->
    hstep A (HSetKey x k) (HAbs (hseqs A) (fupd (node A) x (Some (k, v))) (fupd (carried A) x 0%N) (left A)) 0
(* insertion of a new key *)
| H_InsertBeforeV A i pos k v a : hfree A a -> hposition A i pos -> lookup A i k = 0 ->
    hstep A (HInsertBeforeV i pos k v a)
      (attach (fresh_node A a k v) i (put_before pos a (hseqs A i)) a k) a
| H_InsertAfterV A i pos k v a : hfree A a -> hposition A i pos -> lookup A i k = 0 ->
    hstep A (HInsertAfterV i pos k v a)
      (attach (fresh_node A a k v) i (put_after pos a (hseqs A i)) a k) a
| H_InsertBeforeN A i pos x k v : node A x = Some (k, v) -> ~ hattached A x -> carried_ok A i x k ->
    (left A x = true -> pos <> 0) -> hposition A i pos -> lookup A i k = 0 ->
    hstep A (HInsertBeforeN i pos x) (attach A i (put_before pos x (hseqs A i)) x k) x
| H_InsertAfterN A i pos x k v : node A x = Some (k, v) -> ~ hattached A x -> carried_ok A i x k ->
    (left A x = true -> pos <> 0) -> hposition A i pos -> lookup A i k = 0 ->
    hstep A (HInsertAfterN i pos x) (attach A i (put_after pos x (hseqs A i)) x k) x
(* insertion of a key that is already there: nothing changes (a given node's
   hash key is cached) *)
| H_DuplicateBeforeV A i pos k v a : hfree A a -> lookup A i k <> 0 ->
    hstep A (HInsertBeforeV i pos k v a) A 0
| H_DuplicateAfterV A i pos k v a : hfree A a -> lookup A i k <> 0 ->
    hstep A (HInsertAfterV i pos k v a) A 0
| H_DuplicateBeforeN A i pos x k v : node A x = Some (k, v) -> ~ hattached A x -> carried_ok A i x k ->
    lookup A i k <> 0 -> hstep A (HInsertBeforeN i pos x) (cached A i x k) 0
| H_DuplicateAfterN A i pos x k v : node A x = Some (k, v) -> ~ hattached A x -> carried_ok A i x k ->
    lookup A i k <> 0 -> hstep A (HInsertAfterN i pos x) (cached A i x k) 0
(* inserting a node into the container that already holds it *)
| H_AgainBefore A i pos x : In x (hseqs A i) -> hstep A (HInsertBeforeN i pos x) A 0
| H_AgainAfter A i pos x : In x (hseqs A i) -> hstep A (HInsertAfterN i pos x) A 0
(* removal *)
| H_Detach A i x reset : In x (hseqs A i) -> hstep A (HDetach i x reset) (detached A i x reset) 1
| H_DetachNull A i reset : hstep A (HDetach i 0 reset) A 0
| H_Remove A i x : In x (hseqs A i) ->
    hstep A (HRemove i x)
      (HAbs (fupd (hseqs A) i (without x (hseqs A i))) (fupd (node A) x None) (carried A) (left A)) 1
| H_RemoveNull A i : hstep A (HRemove i 0) A 0
| H_Pop A i reset : hseqs A i <> [] ->
    hstep A (HPop i reset) (detached A i (last (hseqs A i) 0) reset) (last (hseqs A i) 0)
| H_PopEmpty A i reset : hseqs A i = [] -> hstep A (HPop i reset) A 0
| H_Shift A i reset : hseqs A i <> [] ->
    hstep A (HShift i reset) (detached A i (hd 0 (hseqs A i)) reset) (hd 0 (hseqs A i))
| H_ShiftEmpty A i reset : hseqs A i = [] -> hstep A (HShift i reset) A 0
| H_EmptyDelete A i reset :
    hstep A (HEmpty i true reset)
      (HAbs (fupd (hseqs A) i []) (drop_node (hseqs A i) (node A)) (carried A) (left A)) 0
| H_EmptyKeep A i reset :
    hstep A (HEmpty i false reset)
      (HAbs (fupd (hseqs A) i []) (node A)
            (if reset then mark (hseqs A i) 0%N (carried A) else carried A)
            (mark (hseqs A i) true (left A))) 0
(* queries *)
| H_Find A i k : hstep A (HFind i k) A (lookup A i k)
| H_FindNode A i x k v : node A x = Some (k, v) -> carried_ok A i x k ->
    hstep A (HFindNode i x) A (lookup A i k)
(* resizing is invisible; size 0 is refused *)
| H_Resize A i n : n <> 0 -> hstep A (HResize i n) A 1
| H_ResizeZero A i : hstep A (HResize i 0) A 0.

Inductive hsteps : habs V -> list (hcall V) -> habs V -> list nat -> Prop :=
| hnil A : hsteps A [] A []
| hcons A c B r cs C rs : hstep A c B r -> hsteps B cs C rs -> hsteps A (c :: cs) C (r :: rs).

Definition hstart : habs V := HAbs (fun _ => []) (fun _ => None) (fun _ => 0%N) (fun _ => false).
End Spec.
