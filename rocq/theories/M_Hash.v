(** Model of OrderedHash<T>, templates/detachable_ordered_hash.h, .cpp and
    detachable_ordered_hash_util.h ([OrderedHashNoCopy] is the same text
    without copying).

    Memory as in [M_List]; every node has two pairs of links.  The members
    IntKey and StrKey are one value of type [key] (StrKey == NULL iff [KInt];
    for [KStr s] IntKey is the length of s, and the node owns the bytes, so
    the CopyStr = false mode of SetStrKey is not covered).  GetHashKey
    (detachable_ordered_hash_util.h:538-541) is an arbitrary function [hfn] of
    the hashed bytes.  NumListNodes is unbounded, HashNodes is a list of
    length HashSize.  [new] never fails. *)
From Verif Require Import Base S_Seq S_Hash M_Dll.

(** detachable_ordered_hash.cpp:16-20. *)
Definition primes : list N :=
  [3; 5; 11; 23; 47; 97; 191; 383; 769; 1531; 3067; 6143; 12289; 24571; 49157; 98299;
   196613; 393209; 786431; 1572869; 3145721; 6291449; 12582917; 25165813; 50331653;
   100663291; 201326611; 402653189; 805306357; 1610612741; 3221225473]%N.

(** The members of one container, detachable_ordered_hash_util.h:543-550. *)
Record hobj := Hobj { hfn : bytes -> N; table : list nat; npp : nat; hends : ends; hnum : N }.

Record hworld (V : Type) := HWorld
  { halive : nat -> bool; ll : links (* list links *); hl : links (* hash links *);
    hk : nat -> N (* HashKey *); nd : nat -> option (key * V) (* key and value *);
    hashes : nat -> hobj }.
Arguments HWorld {V}. Arguments halive {V}. Arguments ll {V}. Arguments hl {V}.
Arguments hk {V}. Arguments nd {V}. Arguments hashes {V}.

Section M.
Context {V : Type}.
Implicit Types w : hworld V.

Definition set_hobj w i o := HWorld (halive w) (ll w) (hl w) (hk w) (nd w) (fupd (hashes w) i o).
Definition set_ll w L := HWorld (halive w) L (hl w) (hk w) (nd w) (hashes w).
Definition set_hl w H := HWorld (halive w) (ll w) H (hk w) (nd w) (hashes w).
Definition set_hk w f := HWorld (halive w) (ll w) (hl w) f (nd w) (hashes w).

(** HashKey % HashSize; division by zero is undefined. *)
Definition slot (h : N) (size : nat) : res nat :=
  if Nat.eqb size 0 then UB else Ok (N.to_nat (N.modulo h (N.of_nat size))).

(** detachable_ordered_hash_util.h:292-295 and 356-359 (and 515-518): put a
    node at the front of its chain. *)
Definition chain_front (al : nat -> bool) (H : links) (T : list nat) (h : N) (x : nat)
  : res (links * list nat) :=
  let* s := slot h (length T) in
  let* t := rd T s in
  let* nx1 := setf al (nx H) x t in
  let* pv1 := if Nat.eqb t 0 then Ok (pv H) else setf al (pv H) t x in
  let* T1 := wr T s x in
  Ok (Links nx1 pv1, T1).

(** detachable_ordered_hash_util.h:394-401: take a node out of its chain. *)
Definition unchain (al : nat -> bool) (H : links) (T : list nat) (h : N) (x : nat)
  : res (links * list nat) :=
  let* s := slot h (length T) in
  let* p := getf al (pv H) x in
  let* n := getf al (nx H) x in
  let* (nx1, T1) :=
    if negb (Nat.eqb p 0) then let* f := setf al (nx H) p n in Ok (f, T)
    else
      let* t := rd T s in
      if Nat.eqb t x then let* T1 := wr T s n in Ok (nx H, T1) else Ok (nx H, T) in
  let* n1 := getf al nx1 x in
  let* pv1 := if negb (Nat.eqb n1 0) then let* p1 := getf al (pv H) x in setf al (pv H) n1 p1 else Ok (pv H) in
  let* pv2 := setf al pv1 x 0 in
  let* nx2 := setf al nx1 x 0 in
  Ok (Links nx2 pv2, T1).

(** detachable_ordered_hash_util.h:511-521: re-attach all list nodes. *)
Fixpoint rechain (fuel : nat) (al : nat -> bool) (L H : links) (K : nat -> N) (T : list nat) (p : nat)
  : res (links * list nat) :=
  if Nat.eqb p 0 then Ok (H, T) else
  match fuel with
  | O => Fuel
  | S f =>
      let* pv1 := setf al (pv H) p 0 in
      let* h := getf al K p in
      let* (H1, T1) := chain_front al (Links (nx H) pv1) T h p in
      let* n := getf al (nx L) p in
      rechain f al L H1 K T1 n
  end.

(** detachable_ordered_hash_util.h:523-525. *)
Fixpoint next_prime (ps : list N) (size : N) (x : nat) : nat :=
  match ps with
  | [] => x
  | p :: r => if (p <=? size)%N then next_prime r size (S x) else x
  end.

(** detachable_ordered_hash_util.h:494-528; every node is visited once, so the
    loop is given as many steps as the list has nodes. *)
Definition resize w i (size : nat) : res (hworld V * nat) :=
  if Nat.eqb size 0 then Ok (w, 0) else
  let o := hashes w i in
  let* (H1, T1) := rechain (N.to_nat (hnum o)) (halive w) (ll w) (hl w) (hk w) (repeat 0 size) (hd_ (hends o)) in
  Ok (set_hobj (set_hl w H1) i
        (Hobj (hfn o) T1 (next_prime primes (N.of_nat size) 0) (hends o) (hnum o)), 1).

(** The constructors, detachable_ordered_hash_util.h:25-40, for container [i]. *)
Definition empty_obj (f : bytes -> N) : hobj := Hobj f [] 0 (Ends 0 0) 0.
Definition hinit (f : nat -> bytes -> N) (size : nat -> nat) : hworld V :=
  HWorld (fun _ => false) (Links (fun _ => 0) (fun _ => 0)) (Links (fun _ => 0) (fun _ => 0))
         (fun _ => 0%N) (fun _ => None)
         (fun i => if Nat.eqb (size i) 0 then empty_obj (f i)
                   else Hobj (f i) (repeat 0 (size i)) (next_prime primes (N.of_nat (size i)) 0) (Ends 0 0) 0).

(** OrderedHashNode() at detachable_ordered_hash.h:25-27; CreateNode at
    detachable_ordered_hash_util.h:210-235. *)
Definition hnew w (k : key) (v : V) (a : nat) : res (hworld V) :=
  if (Nat.eqb a 0 || halive w a)%bool then UB
  else Ok (HWorld (fupd (halive w) a true)
                  (Links (fupd (nx (ll w)) a 0) (fupd (pv (ll w)) a 0))
                  (Links (fupd (nx (hl w)) a 0) (fupd (pv (hl w)) a 0))
                  (fupd (hk w) a 0%N) (fupd (nd w) a (Some (k, v))) (hashes w)).

(** ~OrderedHashNode() at detachable_ordered_hash.h:29-32. *)
Definition hdelete w (x : nat) : res (hworld V) :=
  if halive w x
  then Ok (HWorld (fupd (halive w) x false) (ll w) (hl w) (hk w) (fupd (nd w) x None) (hashes w))
  else UB.

(** Key and value of a live node. *)
Definition node_of w x : res (key * V) :=
  if halive w x then match nd w x with Some p => Ok p | None => UB end else UB.

(** SetIntKey and SetStrKey (with CopyStr) at detachable_ordered_hash.h:81-112. *)
Definition set_key w x (k : key) : res (hworld V) :=
  let* (_, v) := node_of w x in
  Ok (HWorld (halive w) (ll w) (hl w) (fupd (hk w) x 0%N) (fupd (nd w) x (Some (k, v))) (hashes w)).

(** The loop conditions at detachable_ordered_hash_util.h:452, 463, 484 and
    488: does node [p] match?  (Strings also compare the hash key.) *)
Definition matches w (k : key) (h : N) (p : nat) : res bool :=
  let* (kp, _) := node_of w p in
  let* hp := getf (halive w) (hk w) p in
  match k, kp with
  | KInt z, KInt z' => Ok (Z.eqb z' z)
  | KStr s, KStr s' => Ok (N.eqb hp h && key_eqb kp k)%bool
  | _, _ => Ok false
  end.

Fixpoint find_loop (fuel : nat) w (k : key) (h : N) (p : nat) : res nat :=
  if Nat.eqb p 0 then Ok 0 else
  match fuel with
  | O => Fuel
  | S f =>
      let* b := matches w k h p in
      if b then Ok p else let* n := getf (halive w) (nx (hl w)) p in find_loop f w k h n
  end.

Definition find_from w i (k : key) (h : N) : res nat :=
  let o := hashes w i in
  let* s := slot h (length (table o)) in
  let* t := rd (table o) s in
  find_loop (N.to_nat (hnum o)) w k h t.

(** detachable_ordered_hash_util.h:446-466. *)
Definition find w i (k : key) : res nat := find_from w i k (hfn (hashes w i) (key_bytes k)).

(** detachable_ordered_hash_util.h:468-492. *)
Definition find_node w i (x : nat) : res nat :=
  let* h0 := getf (halive w) (hk w) x in
  let* (k, _) := node_of w x in
  find_from w i k (if N.eqb h0 0 then hfn (hashes w i) (key_bytes k) else h0).

(** detachable_ordered_hash_util.h:286-298 (and 350-362): count the node, then
    resize or put it in its chain. *)
Definition finish_insert w i (L : links) (E : ends) (x : nat) : res (hworld V * nat) :=
  let o := hashes w i in
  let n := (hnum o + 1)%N in
  let w1 := set_hobj (set_ll w L) i (Hobj (hfn o) (table o) (npp o) E n) in
  match nth_error primes (npp o) with
  | Some p =>
      if (p <=? n)%N then let* (w2, _) := resize w1 i (N.to_nat p) in Ok (w2, x)
      else
        let* h := getf (halive w) (hk w) x in
        let* (H1, T1) := chain_front (halive w) (hl w) (table o) h x in
        Ok (set_hobj (set_hl w1 H1) i (Hobj (hfn o) T1 (npp o) E n), x)
  | None =>
        let* h := getf (halive w) (hk w) x in
        let* (H1, T1) := chain_front (halive w) (hl w) (table o) h x in
        Ok (set_hobj (set_hl w1 H1) i (Hobj (hfn o) T1 (npp o) E n), x)
  end.

(** detachable_ordered_hash_util.h:260-265 (and 324-329): cache the hash key. *)
Definition cache_key w i x : res (hworld V) :=
  let* h0 := getf (halive w) (hk w) x in
  if N.eqb h0 0 then
    let* (k, _) := node_of w x in
    Ok (set_hk w (fupd (hk w) x (hfn (hashes w i) (key_bytes k))))
  else Ok w.

(** detachable_ordered_hash_util.h:256-299 ([front = false]) and 320-363. *)
Definition insert_node (after : bool) w i pos x : res (hworld V * nat) :=
  let* p := getf (halive w) (pv (hl w)) x in
  if negb (Nat.eqb p 0) then Ok (w, 0) else
  let* n := getf (halive w) (nx (hl w)) x in
  if negb (Nat.eqb n 0) then Ok (w, 0) else
  let* w1 := cache_key w i x in
  let* f := find_node w1 i x in
  if negb (Nat.eqb f 0) then Ok (w1, 0) else
  let* (L, E) := (if after then link_after else link_before) (halive w1) (ll w1) (hends (hashes w1 i)) pos x in
  finish_insert w1 i L E x.

(** detachable_ordered_hash_util.h:237-253 and 301-317. *)
Definition insert_value (after : bool) w i pos k v a : res (hworld V * nat) :=
  let* w1 := hnew w k v a in
  let* (w2, r) := insert_node after w1 i pos a in
  if Nat.eqb r 0 then let* w3 := hdelete w2 a in Ok (w3, 0) else Ok (w2, r).

(** detachable_ordered_hash_util.h:366-406. *)
Definition hdetach w i x (reset : bool) : res (hworld V * nat) :=
  if Nat.eqb x 0 then Ok (w, 0) else
  let o := hashes w i in
  let al := halive w in
  let* (L, E) := unlink al (ll w) (hends o) x in
  let* h := getf al (hk w) x in
  let* (H1, T1) := unchain al (hl w) (table o) h x in
  Ok (HWorld al L H1 (if reset then fupd (hk w) x 0%N else hk w) (nd w)
        (fupd (hashes w) i (Hobj (hfn o) T1 (npp o) E (hnum o - 1))), 1).

(** detachable_ordered_hash_util.h:408-415. *)
Definition hremove w i x : res (hworld V * nat) :=
  let* (w1, r) := hdetach w i x false in
  if Nat.eqb r 0 then Ok (w1, 0) else let* w2 := hdelete w1 x in Ok (w2, 1).

(** detachable_ordered_hash_util.h:178-184 and 202-208. *)
Definition hpop w i reset : res (hworld V * nat) :=
  let x := tl_ (hends (hashes w i)) in let* (w1, _) := hdetach w i x reset in Ok (w1, x).
Definition hshift w i reset : res (hworld V * nat) :=
  let x := hd_ (hends (hashes w i)) in let* (w1, _) := hdetach w i x reset in Ok (w1, x).

(** detachable_ordered_hash_util.h:419-435. *)
Fixpoint hempty_loop (fuel : nat) w (delete_nodes reset : bool) (p : nat) : res (hworld V) :=
  if Nat.eqb p 0 then Ok w else
  match fuel with
  | O => Fuel
  | S f =>
      let* n := getf (halive w) (nx (ll w)) p in
      let* w1 :=
        if delete_nodes then hdelete w p
        else
          let* pv1 := setf (halive w) (pv (hl w)) p 0 in
          let* nx1 := setf (halive w) (nx (hl w)) p 0 in
          Ok (HWorld (halive w) (ll w) (Links nx1 pv1)
                (if reset then fupd (hk w) p 0%N else hk w) (nd w) (hashes w)) in
      hempty_loop f w1 delete_nodes reset n
  end.

(** detachable_ordered_hash_util.h:417-444. *)
Definition hempty w i (delete_nodes reset : bool) : res (hworld V) :=
  let o := hashes w i in
  let* w1 := hempty_loop (N.to_nat (hnum o)) w delete_nodes reset (hd_ (hends o)) in
  Ok (set_hobj w1 i (Hobj (hfn o) (repeat 0 (length (table o))) (npp o) (Ends 0 0) 0)).

(** One call.  Push is InsertBefore(NULL, .), Unshift is InsertAfter(NULL, .),
    detachable_ordered_hash_util.h:162-200. *)
Definition hexec w (c : hcall V) : res (hworld V * nat) :=
  match c with
  | HCreate k v a => let* w1 := hnew w k v a in Ok (w1, a)
  | HDelete x => let* w1 := hdelete w x in Ok (w1, 0)
  | HSetKey x k => let* w1 := set_key w x k in Ok (w1, 0)
  | HInsertBeforeV i pos k v a => insert_value false w i pos k v a
  | HInsertBeforeN i pos x => insert_node false w i pos x
  | HInsertAfterV i pos k v a => insert_value true w i pos k v a
  | HInsertAfterN i pos x => insert_node true w i pos x
  | HDetach i x reset => hdetach w i x reset
  | HRemove i x => hremove w i x
  | HPop i reset => hpop w i reset
  | HShift i reset => hshift w i reset
  | HEmpty i d reset => let* w1 := hempty w i d reset in Ok (w1, 0)
  | HFind i k => let* r := find w i k in Ok (w, r)
  | HFindNode i x => let* r := find_node w i x in Ok (w, r)
  | HResize i n => resize w i n
  end.

Fixpoint hrun w (cs : list (hcall V)) : res (hworld V * list nat) :=
  match cs with
  | [] => Ok (w, [])
  | c :: r => let* (w1, x) := hexec w c in let* (w2, xs) := hrun w1 r in Ok (w2, x :: xs)
  end.

(** Copying.  The node copy constructor (detachable_ordered_hash.h:35-48)
    leaves all links unset: they hold whatever was in the memory, [junk].
    detachable_ordered_hash_util.h:75-97 (and 130-152). *)
Fixpoint clone_loop w (E : ends) (T : list nat) (p : nat) (fresh : list nat) (junk : nat -> nat)
  : res (hworld V * ends) :=
  if Nat.eqb p 0 then Ok (w, E) else
  match fresh with
  | [] => Fuel
  | a :: fr =>
      let* kv := node_of w p in
      let* h := getf (halive w) (hk w) p in
      if (Nat.eqb a 0 || halive w a)%bool then UB else
      let al := fupd (halive w) a true in
      let nx1 := fupd (nx (ll w)) a 0 in
      let pv1 := fupd (pv (ll w)) a (junk a) in
      let* (L1, E1) :=
        if Nat.eqb (hd_ E) 0 then Ok (Links nx1 pv1, Ends a a)
        else let* nx2 := setf al nx1 (tl_ E) a in Ok (Links nx2 (fupd pv1 a (tl_ E)), Ends (hd_ E) a) in
      let* s := slot h (length T) in
      let* t := rd T s in
      let hn := fupd (nx (hl w)) a t in
      let* hp := if Nat.eqb t 0 then Ok (fupd (pv (hl w)) a 0) else setf al (fupd (pv (hl w)) a 0) t a in
      let w1 := HWorld al L1 (Links hn hp) (fupd (hk w) a h) (fupd (nd w) a (Some kv)) (hashes w) in
      let* n := getf al (nx L1) p in
      clone_loop w1 E1 T n fr junk
  end.

(** The copy constructor, detachable_ordered_hash_util.h:60-101, making
    container [i] a copy of [j]. *)
Definition copy_construct w i j (fresh : list nat) (junk : nat -> nat) : res (hworld V) :=
  let o := hashes w j in
  let T := repeat 0 (length (table o)) in
  let* (w1, E) := clone_loop w (Ends 0 0) T (hd_ (hends o)) fresh junk in
  Ok (set_hobj w1 i (Hobj (hfn o) T (npp o) E (hnum o))).

(** Walks over FirstList/NextList and LastList/PrevList. *)
Definition hnext w x : res nat := getf (halive w) (nx (ll w)) x.
Definition hprev w x : res nat := getf (halive w) (pv (ll w)) x.
End M.
