(** Model of templates/fast_find_replace_util.h (FastFind and FastReplace and their Alloc and
    Compare variants).  Definitions only.

    Elements are numbers.  [eq] is the comparison of two elements: the == of the element type,
    or the caller's ElementsEqual in the Compare variants.  memcmp compares representations,
    which is equality of the numbers.  Pointers into the pattern and the data are indices.
    Sizes and indices are taken without wrap-around (SkipMatch's Extra included).  The sizes
    passed as (size_t)-1, which stand for the number of elements before a zero element
    (lines 655-662, 699, 705, 767, 773), are given explicitly here. *)
From Verif Require Import Base.

Section Find.
Variable eq : N -> N -> bool.

(** fast_find_replace_util.h:389-391 — the object.  [fpat]: MxPattern and its size.
    [fdata]: MxData and the memory behind it; [fend] is MxDataEnd - Data, [fcur] MxCurrPos - Data.
    The MxPattern*Pos fields are the positions of the pointers of the same name. *)
Record finder := Finder {
  fpat : option (list N); flast : option nat; fmin : option nat; fmin2 : option nat; fmid : option nat;
  flastpos : nat; fdata : option (list N); fend : nat; fcur : nat }.

(** 32-44 — constructor *)
Definition new_finder : finder := Finder None None None None None 0 None 0 0.

(** 107-120 — marks the later elements equal to [p] (the element at [Pos]) and counts them.
    [x2] runs over the [n] remaining positions. *)
Fixpoint mark_equal (n : nat) (pat : list N) (p : N) (x2 y : nat) (seen : list bool)
  : res (list bool * nat) :=
  match n with
  | O => Ok (seen, y)
  | S k =>
      let* q := rd pat (x2 + 1) in
      if eq p q then
        let* seen1 := wr seen x2 true in mark_equal k pat p (S x2) (S y) seen1
      else mark_equal k pat p (S x2) y seen
  end.

(** 100-132 — the outer loop; [n] positions remain, [x] is the current one ([Pos] is Pattern+1+x).
    [mn]: Min, [None] being (size_t)-1. *)
Fixpoint scan_pattern (n : nat) (pat : list N) (size seensize x : nat) (seen : list bool)
  (mn : option nat) (m1 m2 : option nat) : res (option nat * option nat) :=
  match n with
  | O => Ok (m1, m2)
  | S k =>
      let* s := rd seen x in
      if s then scan_pattern k pat size seensize (S x) seen mn m1 m2
      else
        let* seen1 := wr seen x true in
        let* p := rd pat (x + 1) in
        let* (seen2, y) := mark_equal (seensize - (x + 1)) pat p (x + 1) 1 seen1 in
        if match mn with None => true | Some m => (y <=? m)%nat end then
          scan_pattern k pat size seensize (S x) seen2 (Some y) (Some (x + 1))
            (if (10 <=? size)%nat then m1 else m2)
        else scan_pattern k pat size seensize (S x) seen2 mn m1 m2
  end.

(** 146-157 *)
Definition spread1 (size last : nat) (m1 m2 : option nat) : option nat * option nat :=
  match m1, m2 with
  | Some a, None =>
      if (10 <=? size)%nat then (Some (a + (last - a) / 2), Some a)
      else if (a =? last - 1)%nat then (Some (last / 2), None)
      else (m1, m2)
  | _, _ => (m1, m2)
  end.

(** 164 *)
Definition spread2 (last : nat) (m2 : option nat) : option nat :=
  match m2 with
  | Some b => if (b =? last - 2)%nat then Some 1 else Some b
  | None => None
  end.

(** 172-204.  The differences are of type size_t after the cast: a negative distance
    (MxPatternMin before MxPatternMin2, line 185) becomes a huge number. *)
Definition cast_diff (a b : nat) : N := if (b <=? a)%nat then N.of_nat (a - b) else (W64 - N.of_nat (b - a))%N.
Definition midpoint (size last : nat) (m1 m2 : option nat) : option N :=
  match m1, m2 with
  | Some a, Some b =>
      if (15 <=? size)%nat then
        let s0 := (1%N, None) in
        let step (s : N * option nat) (x : N) (p : nat) := if (fst s <? x)%N then (x, Some p) else s in
        let s1 := step s0 (cast_diff b 0) 0 in
        let s2 := step s1 (cast_diff a b) b in
        let s3 := step s2 (cast_diff last a) a in
        match s3 with
        | (y, Some p) => Some (N.of_nat p + y / 2)%N
        | (_, None) => None
        end
      else None
  | _, _ => None
  end.

(** 58-206 — SetPattern.  The scratch array Seen has SeenSize flags; that it lives on the
    stack or the heap makes no difference here. *)
Definition SetPattern (f : finder) (pat : list N) : res finder :=
  let size := length pat in
  if (size =? 0)%nat then
    Ok (Finder None (flast f) (fmin f) (fmin2 f) (fmid f) 0 (fdata f) (fend f) (fcur f))
  else
    let last := (size - 1)%nat in
    let lastp := if (1 <? size)%nat then Some last else None in
    if (5 <=? size)%nat then
      let seensize := (size - 2)%nat in
      let* (m1, m2) := scan_pattern seensize pat size seensize 0 (repeat false seensize) None None None in
      let '(m1, m2) := spread1 size last m1 m2 in
      let m2 := spread2 last m2 in
      match midpoint size last m1 m2 with
      | Some m =>
          (* The pointer MxPattern + m; outside the pattern it is undefined to use it. *)
          if (m <? N.of_nat size)%N
          then Ok (Finder (Some pat) lastp m1 m2 (Some (N.to_nat m)) last None (fend f) (fcur f))
          else UB
      | None => Ok (Finder (Some pat) lastp m1 m2 None last None (fend f) (fcur f))
      end
    else Ok (Finder (Some pat) lastp None None None last None (fend f) (fcur f)).

(** 209-223 — SetData *)
Definition SetData (f : finder) (data : list N) : finder :=
  let size := (length data - flastpos f)%nat in
  if (size =? 0)%nat then
    Finder (fpat f) (flast f) (fmin f) (fmin2 f) (fmid f) (flastpos f) None (fend f) (fcur f)
  else Finder (fpat f) (flast f) (fmin f) (fmin2 f) (fmid f) (flastpos f) (Some data) size 0.

(** The tests [*MxPatternX == MxCurrPos[MxPatternXPos]] joined by && (lines 251, 283, 315, 343). *)
Fixpoint filters (ps : list nat) (pat data : list N) (cur : nat) : res bool :=
  match ps with
  | [] => Ok true
  | p :: r =>
      let* a := rd pat p in
      let* b := rd data (cur + p) in
      if eq a b then filters r pat data cur else Ok false
  end.

(** 259-260, 291-292, 323-324, 345-346 — compare elements [x], [x+1], ... ; [n] are left. *)
Fixpoint compare_from (n : nat) (pat data : list N) (cur x : nat) : res bool :=
  match n with
  | O => Ok true
  | S k =>
      let* a := rd pat x in
      let* b := rd data (cur + x) in
      if eq a b then compare_from k pat data cur (S x) else Ok false
  end.

(** memcmp of [n] elements at MxPattern + 1 and MxCurrPos + 1 (lines 255, 287, 319). *)
Definition list_eqb (a b : list N) : bool := if list_eq_dec N.eq_dec a b then true else false.
Definition mem_equal (pat data : list N) (cur n : nat) : res bool :=
  let* a := slice pat 1 n in
  let* b := slice data (cur + 1) n in
  Ok (list_eqb a b).

(** One position (the body of the loops at 242, 274, 306, 334, 357). *)
Definition try_at (f : finder) (pat data : list N) (usemem : bool) (cur : nat) : res bool :=
  let inner := if usemem then mem_equal pat data cur (flastpos f - 1)
               else compare_from (flastpos f - 1) pat data cur 1 in
  match fmid f, fmin2 f, fmin f, flast f with
  | Some d, Some b, Some a, Some l =>
      let* ok := filters [0; l; a; b; d] pat data cur in if ok then inner else Ok false
  | Some _, _, _, _ => UB
  | None, Some b, Some a, Some l =>
      let* ok := filters [0; l; a; b] pat data cur in if ok then inner else Ok false
  | None, Some _, _, _ => UB
  | None, None, Some a, Some l =>
      let* ok := filters [0; l; a] pat data cur in if ok then inner else Ok false
  | None, None, Some _, None => UB
  | None, None, None, Some l =>
      let* ok := filters [0; l] pat data cur in
      if ok then compare_from (flastpos f - 1) pat data cur 1 else Ok false
  | None, None, None, None => filters [0] pat data cur
  end.

(** The loops over MxCurrPos; [n] positions are left.  The result is the position reached. *)
Fixpoint find_loop (n : nat) (f : finder) (pat data : list N) (usemem : bool) (cur : nat) : res nat :=
  match n with
  | O => Ok cur
  | S k =>
      let* ok := try_at f pat data usemem cur in
      if ok then Ok cur else find_loop k f pat data usemem (S cur)
  end.

Definition with_cur (f : finder) (c : nat) : finder :=
  Finder (fpat f) (flast f) (fmin f) (fmin2 f) (fmid f) (flastpos f) (fdata f) (fend f) c.
Definition no_data (f : finder) : finder :=
  Finder (fpat f) (flast f) (fmin f) (fmin2 f) (fmid f) (flastpos f) None (fend f) (fcur f).

(** 229-374 — FindNext: the position of the match, [None] for NULL. *)
Definition FindNext (f : finder) (usemem : bool) : res (finder * option nat) :=
  match fdata f, fpat f with
  | Some data, Some pat =>
      let* c := find_loop (fend f - fcur f) f pat data usemem (fcur f) in
      if (c <? fend f)%nat then Ok (with_cur f (S c), Some c)
      else Ok (no_data (with_cur f c), None)
  | _, _ => Ok (f, None)
  end.

(** 377-386 — SkipMatch *)
Definition SkipMatch (f : finder) (extra : nat) : finder * option nat :=
  match fdata f, fpat f with
  | Some data, Some pat =>
      let c := (fcur f + (flastpos f + extra))%nat in
      let f1 := with_cur f c in
      ((if (fend f <=? c)%nat then no_data f1 else f1), Some c)
  | _, _ => (f, None)
  end.

(** ** FastReplace *)

(** 818-822 — the object.  [rbuf] is the memory of MxData: MxDataSize + MxExtraAlloc elements
    when it was allocated here ([ralloc]), ResultBufferSize elements otherwise. *)
Record replacer := Replacer {
  rfind : finder; rdata : list N; rgrow : nat; rextra : nat;
  rsrc : nat; rsrcend : nat; ralloc : bool; rbuf : list N; rsize : nat; rpos : nat }.

(** Uninitialised memory of [n] elements. *)
Variable uninit : nat -> list N.
(** [false]: FastReplace / FastReplaceCompare, which grow with new and memcpy.
    [true]: the Alloc variants, which grow with AllocType::realloc. *)
Variable alt : bool.

(** realloc keeps the common part of the old and new block. *)
Definition realloc (b : list N) (n : nat) : list N := firstn n b ++ skipn (length b) (uninit n).

(** 518-541 — SetData; [result] is ResultBuffer, if any. *)
Definition RSetData (f : finder) (grow extra : nat) (data : list N) (result : option (list N)) : replacer :=
  let f1 := SetData f data in
  match result with
  | None => Replacer f1 data grow extra 0 (length data) true
              (uninit (length data + grow + extra)) (length data + grow) 0
  | Some b => Replacer f1 data grow extra 0 (length data) false b (length b) 0
  end.

(** 548-595 — FindNext.  In the NULL case the placement new at line 575 needs
    MxExtraAlloc elements behind NewSize, which were just allocated. *)
Definition RFindNext (r : replacer) (usemem : bool) : res (replacer * option nat) :=
  let* (f1, next) := FindNext (rfind r) usemem in
  let srcdist := ((match next with None => rsrcend r | Some n => n end) - rsrc r)%nat in
  let* (buf, size, dist, next1) :=
    (if ((rsize r <? rpos r + srcdist)%nat || (ralloc r && match next with None => true | Some _ => false end))%bool
     then
       if ralloc r then
         let newsize := (rpos r + srcdist + match next with None => 0 | Some _ => rgrow r end)%nat in
         if alt then Ok (realloc (rbuf r) (newsize + rextra r), newsize, srcdist, next)
         else
           let* old := slice (rbuf r) 0 newsize in
           let* nb := blit (uninit (newsize + rextra r)) 0 old in
           Ok (nb, newsize, srcdist, next)
       else Ok (rbuf r, rsize r, (rsize r - rpos r)%nat, None)
     else Ok (rbuf r, rsize r, srcdist, next)) in
  let* buf2 := (if (dist =? 0)%nat then Ok buf
                else let* s := slice (rdata r) (rsrc r) dist in blit buf (rpos r) s) in
  Ok (Replacer f1 (rdata r) (rgrow r) (rextra r) (rsrc r) (rsrcend r) (ralloc r) buf2 size (rpos r + dist), next1).

(** 597-632 — Replace; [d] is Data[0..DataSize-1].  SkipMatch returns NULL only without
    data or pattern; MxSrcCurr would then be NULL, which FindNext (553) must not use. *)
Definition Replace (r : replacer) (d : list N) (post : nat) : res replacer :=
  let* (buf, size, pos) :=
    (if (length d =? 0)%nat then Ok (rbuf r, rsize r, rpos r)
     else
       let* (buf, size, n) :=
         (if (rsize r <? rpos r + length d)%nat then
            if ralloc r then
              let newsize := (rpos r + length d + rgrow r)%nat in
              if alt then Ok (realloc (rbuf r) (newsize + rextra r), newsize, length d)
              else
                let* old := slice (rbuf r) 0 (rsize r + rextra r) in
                let* nb := blit (uninit (newsize + rextra r)) 0 old in
                Ok (nb, newsize, length d)
            else Ok (rbuf r, rsize r, (rsize r - rpos r)%nat)
          else Ok (rbuf r, rsize r, length d)) in
       let* s := slice d 0 n in
       let* buf2 := blit buf (rpos r) s in
       Ok (buf2, size, (rpos r + n)%nat)) in
  let '(f1, p) := SkipMatch (rfind r) post in
  match p with
  | None => UB
  | Some c => Ok (Replacer f1 (rdata r) (rgrow r) (rextra r) (Nat.min c (rsrcend r)) (rsrcend r) (ralloc r) buf size pos)
  end.

(** 719-725, 787-793 — the loop.  Fuel bounds the recursion only. *)
Fixpoint replace_loop (fuel : nat) (r : replacer) (usemem : bool) (d : list N) (limit : option nat) (num : nat)
  : res (replacer * nat) :=
  match fuel with
  | O => Fuel
  | S k =>
      let* (r1, p) := RFindNext r usemem in
      match p with
      | None => Ok (r1, num)
      | Some _ =>
          if match limit with None => true | Some l => (num <? l)%nat end then
            let* r2 := Replace r1 d 0 in replace_loop k r2 usemem d limit (S num)
          else Ok (r1, num)
      end
  end.

(** 707, 775 — the growth size in effect. *)
Definition growth (pat d : list N) (grow : nat) : nat :=
  if ((length pat <? length d) && (grow <? (length d - length pat) * 50))%nat%bool
  then ((length d - length pat) * 50)%nat else grow.

(** 695-731 — ReplaceAll: the result block (MxExtraAlloc elements longer than the text), the
    ResultSize and the number of replacements.  [limit] is [None] for (size_t)-1, which the
    number of replacements cannot reach. *)
Definition ReplaceAll (fuel : nat) (data pat d : list N) (limit : option nat) (grow extra : nat) (usemem : bool)
  : res (list N * nat * nat) :=
  let* f := SetPattern new_finder pat in
  let* (r, num) := replace_loop fuel (RSetData f (growth pat d grow) extra data None) usemem d limit 0 in
  Ok (rbuf r, rpos r, num).

(** 763-798 — StaticReplaceAll into a separate buffer [result]. *)
Definition StaticReplaceAll (fuel : nat) (result data pat d : list N) (limit : option nat) (grow extra : nat) (usemem : bool)
  : res (list N * nat * nat) :=
  let* f := SetPattern new_finder pat in
  let* (r, num) := replace_loop fuel (RSetData f (growth pat d grow) extra data (Some result)) usemem d limit 0 in
  Ok (rbuf r, rpos r, num).
End Find.
