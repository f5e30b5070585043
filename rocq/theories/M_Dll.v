(** The pointer surgery shared, line by line, by the doubly linked list
    (templates/detachable_list_util.h) and the list half of the ordered hash
    (templates/detachable_ordered_hash_util.h).

    Memory: node addresses are numbers, 0 is NULL; each pointer member is a
    function from addresses; [al] tells which addresses hold a live node, and
    touching any other address is undefined behaviour. *)
From Verif Require Import Base S_Seq.

Definition getf {A} (al : nat -> bool) (f : nat -> A) (p : nat) : res A :=
  if al p then Ok (f p) else UB.
Definition setf {A} (al : nat -> bool) (f : nat -> A) (p : nat) (v : A) : res (nat -> A) :=
  if al p then Ok (fupd f p v) else UB.

(** The members NextNode and PrevNode of all nodes. *)
Record links := Links { nx : nat -> nat; pv : nat -> nat }.
(** FirstNode and LastNode of one container. *)
Record ends := Ends { hd_ : nat; tl_ : nat }.

(** templates/detachable_list_util.h:163-177 and 188-202 (same text), and
    templates/detachable_ordered_hash_util.h:271-285. *)
Definition link_before (al : nat -> bool) (L : links) (E : ends) (next node : nat)
  : res (links * ends) :=
  if Nat.eqb next 0 then
    let* pv1 := setf al (pv L) node (tl_ E) in
    let* nx1 := if Nat.eqb (tl_ E) 0 then Ok (nx L) else setf al (nx L) (tl_ E) node in
    Ok (Links nx1 pv1, Ends (if Nat.eqb (hd_ E) 0 then node else hd_ E) node)
  else
    let* nx1 := setf al (nx L) node next in
    let* np := getf al (pv L) next in
    let* pv1 := setf al (pv L) node np in
    let* p := getf al pv1 node in
    let* nx2 := if Nat.eqb p 0 then Ok nx1 else setf al nx1 p node in
    let* pv2 := setf al pv1 next node in
    Ok (Links nx2 pv2, Ends (if Nat.eqb next (hd_ E) then node else hd_ E) (tl_ E)).

(** templates/detachable_list_util.h:214-228 and 239-253 (same text), and
    templates/detachable_ordered_hash_util.h:335-349. *)
Definition link_after (al : nat -> bool) (L : links) (E : ends) (prev node : nat)
  : res (links * ends) :=
  if Nat.eqb prev 0 then
    let* nx1 := setf al (nx L) node (hd_ E) in
    let* pv1 := if Nat.eqb (hd_ E) 0 then Ok (pv L) else setf al (pv L) (hd_ E) node in
    Ok (Links nx1 pv1, Ends node (if Nat.eqb (tl_ E) 0 then node else tl_ E))
  else
    let* pv1 := setf al (pv L) node prev in
    let* pn := getf al (nx L) prev in
    let* nx1 := setf al (nx L) node pn in
    let* n := getf al nx1 node in
    let* pv2 := if Nat.eqb n 0 then Ok pv1 else setf al pv1 n node in
    let* nx2 := setf al nx1 prev node in
    Ok (Links nx2 pv2, Ends (hd_ E) (if Nat.eqb prev (tl_ E) then node else tl_ E)).

(** templates/detachable_list_util.h:290-309 and
    templates/detachable_ordered_hash_util.h:370-389. *)
Definition unlink (al : nat -> bool) (L : links) (E : ends) (node : nat) : res (links * ends) :=
  let* (L1, E1) :=
    if Nat.eqb node (hd_ E) then
      let* f := getf al (nx L) (hd_ E) in
      if Nat.eqb f 0 then Ok (L, Ends f 0)
      else let* pv1 := setf al (pv L) f 0 in Ok (Links (nx L) pv1, Ends f (tl_ E))
    else if Nat.eqb node (tl_ E) then
      let* l := getf al (pv L) (tl_ E) in
      if Nat.eqb l 0 then Ok (L, Ends 0 l)
      else let* nx1 := setf al (nx L) l 0 in Ok (Links nx1 (pv L), Ends (hd_ E) l)
    else
      let* n := getf al (nx L) node in
      let* pv1 := if Nat.eqb n 0 then Ok (pv L)
                  else let* p := getf al (pv L) node in setf al (pv L) n p in
      let* p := getf al pv1 node in
      let* nx1 := if Nat.eqb p 0 then Ok (nx L)
                  else let* n := getf al (nx L) node in setf al (nx L) p n in
      Ok (Links nx1 pv1, E) in
  let* nx2 := setf al (nx L1) node 0 in
  let* pv2 := setf al (pv L1) node 0 in
  Ok (Links nx2 pv2, E1).
