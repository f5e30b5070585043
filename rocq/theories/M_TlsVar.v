(** Model of sync/sync_tls.cpp:250-412, 445-478, the string part of TLS::MixedVar (MxStr and
    MxStrPos).  Definitions only.

    Not modelled: MxMode, MxInt, MxDouble (they do not touch the string part; note that only
    SetData sets the mode), PrependDouble and AppendDouble (snprintf), ReplaceData/ReplaceStr.
    All variables use one TLS object.  memcpy of zero bytes from or to NULL is taken as doing
    nothing.  IntToString (445-478) is the same code as in static_mixed_var.h. *)
From Verif Require Import Base S_Seq S_Tls M_Tls S_TlsVar.
From Verif Require M_MixedVar.

Section Var.
Variable node : nat.
Variable junk : nat -> nat -> N.
Variables avail moves : nat -> bool.

(** sync_tls.h:105-106 — MxStr and MxStrPos *)
Record tvar := TVar { ptr : option nat; vpos : nat }.

(** 250-252 — the constructor *)
Definition Construct : tvar := TVar None 0.

(** memcpy(d + i, s, length s) *)
Definition put (t : tls) (d : option nat) (i : nat) (s : bytes) : res tls :=
  match s, d with
  | [], _ => Ok t
  | _, None => UB
  | _, Some id =>
      match heap t id with
      | None => UB
      | Some b => let* b' := blit b (1 + i) s in Ok (Tls (main t) (fupd (heap t) id (Some b')) (req t))
      end
  end.
(** d[i] = v *)
Definition put1 (t : tls) (d : option nat) (i : nat) (v : N) : res tls :=
  match d with None => UB | Some id => client_store t id i v end.
(** The [n] bytes at [d]. *)
Definition get (t : tls) (d : option nat) (n : nat) : res bytes :=
  match n, d with
  | 0, _ => Ok []
  | _, None => UB
  | _, Some id => match heap t id with None => UB | Some b => slice b 1 n end
  end.

(** 254-257 — the destructor *)
Definition Destruct (t : tls) (v : tvar) : res tls :=
  match ptr v with None => Ok t | Some _ => free node junk t (ptr v) true end.

(** 300-308 *)
Definition SetData (t : tls) (v : tvar) (src : bytes) (size : nat) : res (tls * tvar) :=
  let* t1 := match ptr v with None => Ok t | Some _ => free node junk t (ptr v) true end in
  let* (t2, p) := malloc node junk avail t1 (size + 1) in
  let* s := slice src 0 size in
  let* t3 := put t2 p 0 s in
  let* t4 := put1 t3 p size 0 in
  Ok (t4, TVar p size).

(** 310-313 *)
Definition SetStr (t : tls) (v : tvar) (src : bytes) : res (tls * tvar) :=
  let* s := cstr src in SetData t v src (length s).

(** 315-324 *)
Definition PrependData (t : tls) (v : tvar) (src : bytes) (size : nat) : res (tls * tvar) :=
  let* (t1, p) := malloc node junk avail t (size + vpos v + 1) in
  let* s := slice src 0 size in
  let* t2 := put t1 p 0 s in
  let* old := get t2 (ptr v) (vpos v) in
  let* t3 := put t2 p size old in
  let* t4 := free node junk t3 (ptr v) true in
  let* t5 := put1 t4 p (vpos v + size) 0 in
  Ok (t5, TVar p (vpos v + size)).

(** 326-329 *)
Definition PrependStr (t : tls) (v : tvar) (src : bytes) : res (tls * tvar) :=
  let* s := cstr src in PrependData t v src (length s).

(** 356-362 *)
Definition AppendData (t : tls) (v : tvar) (src : bytes) (size : nat) : res (tls * tvar) :=
  let* (t1, p) := realloc node junk avail moves t (ptr v) (vpos v + size + 1) true in
  let* s := slice src 0 size in
  let* t2 := put t1 p (vpos v) s in
  let* t3 := put1 t2 p (vpos v + size) 0 in
  Ok (t3, TVar p (vpos v + size)).

(** 364-367 *)
Definition AppendStr (t : tls) (v : tvar) (src : bytes) : res (tls * tvar) :=
  let* s := cstr src in AppendData t v src (length s).

(** 331-341, 369-379 — [tmp] is the uninitialised tempbuffer[44]. *)
Definition PrependInt (t : tls) (v : tvar) (z : Z) (radix : N) (tmp : bytes) : res (tls * tvar) :=
  let* (b, ok) := M_MixedVar.IntToStringI tmp z radix in if ok then PrependStr t v b else Ok (t, v).
Definition PrependUInt (t : tls) (v : tvar) (n : N) (radix : N) (tmp : bytes) : res (tls * tvar) :=
  let* (b, ok) := M_MixedVar.IntToStringU tmp n radix in if ok then PrependStr t v b else Ok (t, v).
Definition AppendInt (t : tls) (v : tvar) (z : Z) (radix : N) (tmp : bytes) : res (tls * tvar) :=
  let* (b, ok) := M_MixedVar.IntToStringI tmp z radix in if ok then AppendStr t v b else Ok (t, v).
Definition AppendUInt (t : tls) (v : tvar) (n : N) (radix : N) (tmp : bytes) : res (tls * tvar) :=
  let* (b, ok) := M_MixedVar.IntToStringU tmp n radix in if ok then AppendStr t v b else Ok (t, v).

(** 394-399 *)
Definition AppendChar (t : tls) (v : tvar) (c : N) : res (tls * tvar) :=
  let* (t1, p) := realloc node junk avail moves t (ptr v) (vpos v + 2) true in
  let* t2 := put1 t1 p (vpos v) c in
  let* t3 := put1 t2 p (vpos v + 1) 0 in
  Ok (t3, TVar p (vpos v + 1)).

(** 401-404 *)
Definition AppendMissingChar (t : tls) (v : tvar) (c : N) : res (tls * tvar) :=
  match vpos v with
  | 0 => AppendChar t v c
  | S k =>
      let* d := match ptr v with None => UB | Some id => client_load t id k end in
      if (d =? c)%N then Ok (t, v) else AppendChar t v c
  end.

(** 406-412 *)
Definition SetSize (t : tls) (v : tvar) (k : nat) : res (tls * tvar) :=
  let* (t1, p) := (if vpos v <? k then realloc node junk avail moves t (ptr v) (k + 1) true
                   else Ok (t, ptr v)) in
  let* t2 := put1 t1 p k 0 in
  Ok (t2, TVar p k).

(** The memory at MxStr as SetData reads it. *)
Definition memory (t : tls) (v : tvar) : res bytes :=
  match ptr v with
  | None => UB
  | Some id => match heap t id with None => UB | Some b => Ok (skipn 1 b) end
  end.

(** 277-298 — operator=, for two different variables *)
Definition Assign (t : tls) (v w : tvar) : res (tls * tvar) :=
  match ptr w with
  | Some _ => let* m := memory t w in SetData t v m (vpos w)
  | None => let* t1 := free node junk t (ptr v) true in Ok (t1, TVar None 0)
  end.

(** 260-275 — the copy constructor; [garbage] is the indeterminate value of MxStr, which
    SetData tests and frees. *)
Definition CopyConstruct (t : tls) (w : tvar) (garbage : option nat) : res (tls * tvar) :=
  match ptr w with
  | Some _ => let* m := memory t w in SetData t (TVar garbage 0) m (vpos w)
  | None => Ok (t, TVar None 0)
  end.

(** One operation on the variables [vs]. *)
Definition on (vs : nat -> tvar) (x : nat) (r : res (tls * tvar)) : res (tls * (nat -> tvar)) :=
  let* (t, v) := r in Ok (t, fupd vs x v).
Definition vexec (t : tls) (vs : nat -> tvar) (o : vop) : res (tls * (nat -> tvar)) :=
  match o with
  | VSetStr x s rest => on vs x (SetStr t (vs x) (s ++ 0%N :: rest))
  | VSetData x d rest => on vs x (SetData t (vs x) (d ++ rest) (length d))
  | VPrependStr x s rest => on vs x (PrependStr t (vs x) (s ++ 0%N :: rest))
  | VPrependData x d rest => on vs x (PrependData t (vs x) (d ++ rest) (length d))
  | VPrependInt x z r tmp => on vs x (PrependInt t (vs x) z r tmp)
  | VPrependUInt x n r tmp => on vs x (PrependUInt t (vs x) n r tmp)
  | VAppendStr x s rest => on vs x (AppendStr t (vs x) (s ++ 0%N :: rest))
  | VAppendData x d rest => on vs x (AppendData t (vs x) (d ++ rest) (length d))
  | VAppendInt x z r tmp => on vs x (AppendInt t (vs x) z r tmp)
  | VAppendUInt x n r tmp => on vs x (AppendUInt t (vs x) n r tmp)
  | VAppendChar x c => on vs x (AppendChar t (vs x) c)
  | VAppendMissingChar x c => on vs x (AppendMissingChar t (vs x) c)
  | VSetSize x k => on vs x (SetSize t (vs x) k)
  | VAssign x y => if x =? y then Ok (t, vs) else on vs x (Assign t (vs x) (vs y))
  | VRenew x => let* t1 := Destruct t (vs x) in Ok (t1, fupd vs x Construct)
  end.
End Var.
