(** Model of sync/sync_tls.cpp:59-235, the thread-local allocator (one thread, one TLS object).
    Definitions only.

    Blocks of the C library allocator are numbered; a block that was never handed out or was
    freed is [None].  Different numbers are different, not overlapping blocks: that is what the
    C library guarantees.  A pointer returned by TLS::malloc points to offset 1 of its block and
    is represented by the number of the block.  Sizes are natural numbers.

    The queues of cached blocks (QueueNode, lines 85, 181, 216) live inside the cached blocks;
    they are represented by the sequences of block numbers (detachable_queue is modelled and
    proved elsewhere), and a cached block must have room for a node of [node] bytes, whose
    contents are arbitrary ([junk]). *)
From Verif Require Import Base S_Seq S_Tls.

Section Tls.
(** sizeof(QueueNode<char>) *)
Variable node : nat.
(** Contents of uninitialised memory: block, offset. *)
Variable junk : nat -> nat -> N.
(** Whether the n-th request to the C library can be satisfied. *)
Variable avail : nat -> bool.
(** Whether the n-th request, a realloc, moves the block. *)
Variable moves : nat -> bool.

(** [main]: the thread's value, the queues; [None] is NULL.  [req]: number of requests so far,
    also the number of the next block. *)
Record tls := Tls { main : option (list (list nat)); heap : nat -> option bytes; req : nat }.

Definition fresh (id n : nat) : bytes := map (junk id) (seq 0 n).

(** ::malloc, ::free, ::realloc *)
Definition sys_malloc (t : tls) (n : nat) : tls * option nat :=
  let id := req t in
  if avail id then (Tls (main t) (fupd (heap t) id (Some (fresh id n))) (S id), Some id)
  else (Tls (main t) (heap t) (S id), None).

Definition sys_free (t : tls) (id : nat) : res tls :=
  match heap t id with
  | None => UB
  | Some _ => Ok (Tls (main t) (fupd (heap t) id None) (req t))
  end.

Definition sys_realloc (t : tls) (id n : nat) : res (tls * option nat) :=
  match heap t id with
  | None => UB
  | Some b =>
      let k := req t in
      if avail k then
        let b' := firstn n b ++ skipn (length b) (fresh k n) in
        if moves k then Ok (Tls (main t) (fupd (fupd (heap t) id None) k (Some b')) (S k), Some k)
        else Ok (Tls (main t) (fupd (heap t) id (Some b')) (S k), Some id)
      else Ok (Tls (main t) (heap t) (S k), None)
  end.

Definition load (t : tls) (id i : nat) : res N :=
  match heap t id with None => UB | Some b => rd b i end.
Definition store (t : tls) (id i : nat) (v : N) : res tls :=
  match heap t id with
  | None => UB
  | Some b => let* b' := wr b i v in Ok (Tls (main t) (fupd (heap t) id (Some b')) (req t))
  end.

(** memcpy between different blocks: [n] bytes from offset [i] of [a] to offset [j] of [b]. *)
Definition memcpy (t : tls) (b j a i n : nat) : res tls :=
  match heap t a, heap t b with
  | Some x, Some y =>
      let* s := slice x i n in
      let* y' := blit y j s in
      Ok (Tls (main t) (fupd (heap t) b (Some y')) (req t))
  | _, _ => UB
  end.

(** 227-235 — NormalizeBitPosition; a shift by 64 or more is undefined. *)
Fixpoint norm_from (steps pos size : nat) : res nat :=
  match steps with
  | O => UB
  | S s => if 2 ^ pos <? size then norm_from s (S pos) size else Ok pos
  end.
Definition NormalizeBitPosition (size : nat) : res nat := norm_from 61 3 size.

(** The int expression (1 << Pos), lines 135 and 149. *)
Definition shl1 (pos : nat) : res nat := if pos <? 31 then Ok (2 ^ pos) else UB.

(** 60-66 — ThreadInit (new does not fail) *)
Definition ThreadInit (t : tls) (bits : nat) : tls :=
  match main t with
  | Some _ => t
  | None => Tls (Some (repeat [] bits)) (heap t) (req t)
  end.

(** 99 *)
Definition tag (t : tls) (id pos : nat) : res (tls * option nat) :=
  let* t' := store t id 0 (N.of_nat pos mod 256)%N in Ok (t', Some id).

(** 68-102 — malloc.  Line 81 turns a NULL from the C library into the address 1, and line 99
    then writes to address 0. *)
Definition malloc (t : tls) (size : nat) : res (tls * option nat) :=
  if size =? 0 then Ok (t, None)
  else match main t with
  | None => Ok (t, None)
  | Some q =>
      let* pos := NormalizeBitPosition size in
      if length q <=? pos then
        let '(t1, d) := sys_malloc t (2 ^ pos + 1) in
        match d with None => UB | Some id => tag t1 id pos end
      else
        match nth pos q [] with
        | id :: rest => tag (Tls (Some (upd q pos rest)) (heap t) (req t)) id pos
        | [] =>
            let '(t1, d) := sys_malloc t (Nat.max (2 ^ pos + 1) node) in
            match d with None => Ok (t1, None) | Some id => tag t1 id pos end
        end
  end.

(** 162-184 — free *)
Definition free (t : tls) (d : option nat) (cache : bool) : res tls :=
  match d, main t with
  | None, _ => Ok t
  | _, None => Ok t
  | Some id, Some q =>
      let* h := load t id 0 in
      let pos := N.to_nat h in
      if length q <=? pos then sys_free t id
      else if negb cache then sys_free t id
      else
        match heap t id with
        | None => UB
        | Some b =>
            let* b' := blit b 0 (fresh id node) in
            Ok (Tls (Some (upd q pos (nth pos q [] ++ [id]))) (fupd (heap t) id (Some b')) (req t))
        end
  end.

(** 104-142 — realloc *)
Definition realloc (t : tls) (d : option nat) (size : nat) (cache : bool) : res (tls * option nat) :=
  if size =? 0 then let* t1 := free t d cache in Ok (t1, None)
  else match d with
  | None => malloc t size
  | Some id =>
      let* pos := NormalizeBitPosition size in
      let* h := load t id 0 in
      let pos2 := N.to_nat h in
      if pos <=? pos2 then Ok (t, Some id)
      else match main t with
      | None => Ok (t, None)
      | Some q =>
          if (length q <=? pos) && (length q <=? pos2) then
            let* (t1, r) := sys_realloc t id (1 + 2 ^ pos) in
            match r with
            | None => UB (* the address 1 is returned as if it were a block *)
            | Some id' => Ok (t1, Some id')
            end
          else
            let* (t1, r) := malloc t (2 ^ pos) in
            let* n := shl1 pos2 in
            match r with
            | None => UB (* memcpy to NULL *)
            | Some id' =>
                let* t2 := memcpy t1 id' 1 id 1 n in
                let* t3 := free t2 (Some id) cache in
                Ok (t3, Some id')
            end
      end
  end.

(** 144-160 — dup_malloc: the answer is a block of the C library (offset 0). *)
Definition dup_malloc (t : tls) (d : option nat) (cache : bool) : res (tls * option nat) :=
  match d with
  | None => Ok (t, None)
  | Some id =>
      let* h := load t id 0 in
      let* size := shl1 (N.to_nat h) in
      let '(t1, r) := sys_malloc t size in
      match r with
      | None => Ok (t1, None)
      | Some id' =>
          let* t2 := memcpy t1 id' 0 id 1 size in
          let* t3 := free t2 (Some id) cache in
          Ok (t3, Some id')
      end
  end.

(** 203-225 — ThreadEnd *)
Fixpoint free_all (t : tls) (l : list nat) : res tls :=
  match l with
  | [] => Ok t
  | id :: r => let* t1 := sys_free t id in free_all t1 r
  end.
Definition ThreadEnd (t : tls) : res (tls * bool) :=
  match main t with
  | None => Ok (t, false)
  | Some q => let* t1 := free_all (Tls None (heap t) (req t)) (concat q) in Ok (t1, true)
  end.

(** 186-201 — GetBucketInfo *)
Definition GetBucketInfo (t : tls) (num : nat) : res (option (nat * nat)) :=
  match main t with
  | None => Ok None
  | Some q =>
      if length q <=? num then Ok None
      else
        let n := length (nth num q []) in
        let* s := shl1 num in
        Ok (Some (n, Nat.max s node * n))
  end.

(** What the client does with its memory: byte [i] of the block it got. *)
Definition client_store (t : tls) (id i : nat) (v : N) : res tls := store t id (1 + i) v.
Definition client_load (t : tls) (id i : nat) : res N := load t id (1 + i).

(** One step of a client. *)
Definition exec (t : tls) (o : op) : res (tls * answer) :=
  match o with
  | KMalloc n => let* (t1, r) := malloc t n in Ok (t1, APtr r)
  | KRealloc p n k => let* (t1, r) := realloc t (Some p) n k in Ok (t1, APtr r)
  | KFree p k => let* t1 := free t (Some p) k in Ok (t1, ANone)
  | KDup p k => let* (t1, r) := dup_malloc t (Some p) k in Ok (t1, APtr r)
  | KWrite p i v => let* t1 := client_store t p i v in Ok (t1, ANone)
  | KRead p i => let* v := client_load t p i in Ok (t, AByte v)
  end.
End Tls.

(** Before ThreadInit *)
Definition no_thread : tls := Tls None (fun _ => None) 0.
