(** Model of sync/sync_tls.cpp:414-442 (TLS::MixedVar::ReplaceData and ReplaceStr) and of
    templates/fast_find_replace_util.h:518-632, 763-798 when the result is written over the
    data, which is how ReplaceData calls it.  Definitions only.

    The memory block of the variable is a list; it is longer than the text (terminator and
    unused part).  The allocator is not part of this model (see M_Tls): a block asked for is
    delivered.  The pattern and the replacement do not lie in the variable. *)
From Verif Require Import Base M_Find.

(** memcpy inside one block.  [strict]: two different regions that overlap are undefined, as
    in the C standard (copying a region onto itself is allowed here).  Otherwise the old
    contents of the source arrive, as with a memcpy that behaves like memmove. *)
Definition memcpy_in (strict : bool) (b : list N) (dst src n : nat) : res (list N) :=
  if strict && negb (dst =? src)%nat && (dst <? src + n)%nat && (src <? dst + n)%nat then UB
  else memmove b dst src n.

(** fast_find_replace_util.h:818-822 — the object for a result at the same address as the data.
    [imem]: the block.  [isrc], [iend]: MxSrcCurr and MxSrcEnd; [isize]: MxDataSize. *)
Record ireplacer := IReplacer {
  ifind : finder; isrc : nat; iend : nat; isize : nat; ipos : nat; imem : list N }.

(** The searcher reads the memory as it is now. *)
Definition with_mem (f : finder) (d : list N) : finder :=
  match fdata f with
  | None => f
  | Some _ => Finder (fpat f) (flast f) (fmin f) (fmin2 f) (fmid f) (flastpos f) (Some d) (fend f) (fcur f)
  end.

(** 518-541 — SetData *)
Definition ISetData (f : finder) (mem : list N) (size : nat) : ireplacer :=
  IReplacer (SetData f (firstn size mem)) 0 size size 0 mem.

(** 548-595 — FindNext; MxDataAllocated is false. *)
Definition IFindNext (strict : bool) (r : ireplacer) : res (ireplacer * option nat) :=
  let* (f1, next) := FindNext N.eqb (with_mem (ifind r) (firstn (iend r) (imem r))) true in
  let srcdist := ((match next with None => iend r | Some n => n end) - isrc r)%nat in
  let '(dist, next1) :=
    if (isize r <? ipos r + srcdist)%nat then ((isize r - ipos r)%nat, None) else (srcdist, next) in
  let* m := (if (dist =? 0)%nat then Ok (imem r) else memcpy_in strict (imem r) (ipos r) (isrc r) dist) in
  Ok (IReplacer f1 (isrc r) (iend r) (isize r) (ipos r + dist) m, next1).

(** 597-632 — Replace *)
Definition IReplace (r : ireplacer) (d : list N) : res ireplacer :=
  let* (m, pos) :=
    (if (length d =? 0)%nat then Ok (imem r, ipos r)
     else
       let n := if (isize r <? ipos r + length d)%nat then (isize r - ipos r)%nat else length d in
       let* s := slice d 0 n in
       let* m := blit (imem r) (ipos r) s in
       Ok (m, (ipos r + n)%nat)) in
  let '(f1, p) := SkipMatch (ifind r) 0 in
  match p with
  | None => UB
  | Some c => Ok (IReplacer f1 (Nat.min c (iend r)) (iend r) (isize r) pos m)
  end.

(** 787-793 — the loop; no limit.  Fuel bounds the recursion only. *)
Fixpoint ireplace_loop (fuel : nat) (strict : bool) (r : ireplacer) (d : list N) (num : nat)
  : res (ireplacer * nat) :=
  match fuel with
  | O => Fuel
  | S k =>
      let* (r1, p) := IFindNext strict r in
      match p with
      | None => Ok (r1, num)
      | Some _ => let* r2 := IReplace r1 d in ireplace_loop k strict r2 d (S num)
      end
  end.

(** 763-798 — StaticReplaceAll(mem, size, mem, size, ...): the block, the new size and the
    number of replacements. *)
Definition ReplaceInPlace (strict : bool) (mem : list N) (size : nat) (pat d : list N)
  : res (list N * nat * nat) :=
  let* f := SetPattern N.eqb new_finder pat in
  let* (r, num) := ireplace_loop (S size) strict (ISetData f mem size) d 0 in
  Ok (imem r, ipos r, num).

(** sync_tls.h:105-106 — MxStr ([None]: NULL) and MxStrPos *)
Record rvar := RVar { rmem : option (list N); rlen : nat }.

(** sync_tls.cpp:414-437.  A NULL result makes StaticReplaceAll allocate one of its own
    (fast_find_replace_util.h:525-534), which it frees again; the terminator then goes through
    NULL. *)
Definition ReplaceData (uninit : nat -> list N) (strict : bool) (v : rvar) (pat d : list N)
  : res (rvar * nat) :=
  if (length pat <? length d)%nat then
    let* data := match rmem v with
                 | None => if (rlen v =? 0)%nat then Ok [] else UB
                 | Some m => slice m 0 (rlen v)
                 end in
    let* (b, size, num) := ReplaceAll N.eqb uninit true (S (length data)) data pat d None 1024 1 true in
    let* b1 := wr b size 0%N in
    Ok (RVar (Some b1) size, num)
  else
    match rmem v with
    | None =>
        let* (b, size, num) := ReplaceAll N.eqb uninit true 1 [] pat d None 1024 1 true in UB
    | Some m =>
        let* (m1, size, num) := ReplaceInPlace strict m (rlen v) pat d in
        let* m2 := wr m1 size 0%N in
        Ok (RVar (Some m2) size, num)
    end.

(** 439-442; [src] and [dest] are the memory at the two arguments. *)
Definition ReplaceStr (uninit : nat -> list N) (strict : bool) (v : rvar) (src dest : list N)
  : res (rvar * nat) :=
  let* a := cstr src in
  let* b := cstr dest in
  ReplaceData uninit strict v a b.
