(** Model of json/json_serializer.cpp and .h (class JSON::Serializer).  Definitions only.

    Simplifications: sizes and positions are natural numbers (no object is larger than 2^63
    bytes, so sums of a position and string sizes do not wrap); a NUL-terminated string argument
    is the list of its bytes before the terminator, a NULL pointer is [None]. *)
From Verif Require Import Base S_Json.
Open Scope N_scope.

(** json_serializer.h:21-30. *)
Inductive mode := RootFirst | RootNext | ObjectFirst | ObjectNext | ArrayFirst | ArrayNext | StrMode.

(** json_serializer.h:91-99; the lengths of the splitters are always those of the strings. *)
Record ser := {
  s_modes : list mode; s_depth : nat;
  s_buf : option bytes; s_pos : nat; s_size : nat;
  s_esc : bool; s_ksp : bytes; s_vsp : bytes
}.
Definition set_bp (s : ser) (b : option bytes) (p : nat) : ser :=
  {| s_modes := s_modes s; s_depth := s_depth s; s_buf := b; s_pos := p; s_size := s_size s;
     s_esc := s_esc s; s_ksp := s_ksp s; s_vsp := s_vsp s |}.
Definition set_md (s : ser) (m : list mode) (d : nat) : ser :=
  {| s_modes := m; s_depth := d; s_buf := s_buf s; s_pos := s_pos s; s_size := s_size s;
     s_esc := s_esc s; s_ksp := s_ksp s; s_vsp := s_vsp s |}.

(** json_serializer.cpp:13-19; the elements of MxModes are uninitialised except the first, here
    they hold [junk]. *)
Definition Serializer (esc : bool) (ksp vsp : bytes) (maxdepth : nat) (junk : mode) : res ser :=
  let* m := wr (repeat junk maxdepth) 0 RootFirst in
  Ok {| s_modes := m; s_depth := 0; s_buf := None; s_pos := 0; s_size := 0;
        s_esc := esc; s_ksp := ksp; s_vsp := vsp |}.

(** json_serializer.cpp:21-26. *)
Definition Reset (s : ser) : res ser :=
  let* m := wr (s_modes s) 0 RootFirst in
  Ok (set_bp (set_md s m 0) (s_buf s) 0).

(** json_serializer.cpp:28-33 for BufferSize >= 1 (for 0 the size wraps around to the largest
    size_t, see C05). *)
Definition SetBuffer (s : ser) (b : bytes) : ser :=
  {| s_modes := s_modes s; s_depth := s_depth s; s_buf := Some b; s_pos := 0; s_size := length b - 1;
     s_esc := s_esc s; s_ksp := s_ksp s; s_vsp := s_vsp s |}.

(** json_serializer.h:40. *)
Definition ResetPos (s : ser) : ser := set_bp s (s_buf s) 0.

(** [MxModes[MxModeDepth]]. *)
Definition mode_at (s : ser) : res mode := rd (s_modes s) (s_depth s).

(** [MxBuffer[MxBufferPos++] = c]. *)
Definition put (c : N) (s : ser) : res ser :=
  match s_buf s with
  | None => UB
  | Some b => let* b' := wr b (s_pos s) c in Ok (set_bp s (Some b') (S (s_pos s)))
  end.
(** [MxBuffer[MxBufferPos] = '\0']. *)
Definition nul (s : ser) : res ser :=
  match s_buf s with
  | None => UB
  | Some b => let* b' := wr b (s_pos s) 0 in Ok (set_bp s (Some b') (s_pos s))
  end.
(** [strcpy(MxBuffer + MxBufferPos, t); MxBufferPos += strlen(t)]. *)
Definition cpy (t : bytes) (s : ser) : res ser :=
  match s_buf s with
  | None => UB
  | Some b => let* b' := blit b (s_pos s) (t ++ [0]) in Ok (set_bp s (Some b') (s_pos s + length t))
  end.

(** json_serializer.cpp:259-280, one character. *)
Definition calc1 (esc : bool) (c : N) : nat :=
  if (c =? 34) || (c =? 92) || (c =? 8) || (c =? 12) || (c =? 10) || (c =? 13) || (c =? 9) then 2
  else if c =? 47 then (if esc then 2 else 1)
  else 1.

Definition is_str (m : mode) : bool := match m with StrMode => true | _ => false end.

(** json_serializer.cpp:251-286. *)
Definition CalculateStrSize (s : ser) (v : bytes) (addkey : bool) : res nat :=
  let* m := mode_at s in
  Ok ((if is_str m then 0 else 2) + fold_right (fun c n => calc1 (s_esc s) c + n)%nat 0%nat v
      + (if addkey then length (s_ksp s) else 0))%nat.

(** json_serializer.cpp:288-324.  The loop never advances Val, so it looks at the first byte every
    time ([nth 0]). *)
Definition CalculateStrSizeN (s : ser) (v : bytes) (addkey : bool) : res nat :=
  let* m := mode_at s in
  Ok ((if is_str m then 0 else 2) + fold_right (fun _ n => calc1 (s_esc s) (nth 0 v 0%N) + n)%nat 0%nat v
      + (if addkey then length (s_ksp s) else 0))%nat.

(** json_serializer.cpp:358-366 (and 382-390): the bytes stored for one character.  For a slash
    nothing is stored unless slashes are escaped. *)
Definition esc1 (esc : bool) (c : N) : list N :=
  if c =? 34 then [92; 34]
  else if c =? 92 then [92; 92]
  else if c =? 47 then (if esc then [92; 47] else [])
  else if c =? 8 then [92; 98]
  else if c =? 12 then [92; 102]
  else if c =? 10 then [92; 110]
  else if c =? 13 then [92; 114]
  else if c =? 9 then [92; 116]
  else [c].

Fixpoint put_list (t : list N) (s : ser) : res ser :=
  match t with [] => Ok s | c :: r => let* s1 := put c s in put_list r s1 end.

(** json_serializer.cpp:350-372 and 374-398 (the two differ only in how the end of the string is
    found). *)
Definition InternalAppendStr (v : bytes) (s : ser) : res ser :=
  let* m := mode_at s in
  let* s1 := (if is_str m then Ok s else put 34 s) in
  let* s2 := put_list (flat_map (esc1 (s_esc s)) v) s1 in
  let* s3 := (if is_str m then Ok s2 else put 34 s2) in
  nul s3.

(** json_serializer.cpp:215-228. *)
Definition Append (v : option bytes) (s : ser) : res (bool * ser) :=
  match v with
  | None => Ok (false, s)
  | Some t =>
      if (s_size s <? s_pos s + length t)%nat then Ok (false, s)
      else let* s1 := put_list t s in let* s2 := nul s1 in Ok (true, s2)
  end.

Definition is_obj (m : mode) : bool := match m with ObjectFirst | ObjectNext => true | _ => false end.
Definition is_arr (m : mode) : bool := match m with ArrayFirst | ArrayNext => true | _ => false end.
Definition is_next (m : mode) : bool := match m with ObjectNext | ArrayNext => true | _ => false end.
Definition is_none (k : option bytes) : bool := match k with None => true | _ => false end.

(** json_serializer.cpp:326-347. *)
Definition InternalAppendNextPrefix (key : option bytes) (extra : nat) (s : ser) : res (bool * ser) :=
  let* m := mode_at s in
  if (match m with RootNext | StrMode => true | _ => false end
      || (is_obj m && is_none key)
      || (match m with RootFirst | ArrayFirst | ArrayNext => true | _ => false end && negb (is_none key)))%bool
  then Ok (false, s)
  else
    let x0 := if is_next m then length (s_vsp s) else 0%nat in
    let* x := match key with
              | Some k => let* y := CalculateStrSize s k true in Ok (x0 + y)%nat
              | None => Ok x0
              end in
    if (s_size s <? s_pos s + x + extra)%nat then Ok (false, s)
    else
      let setm (m' : mode) := (let* l := wr (s_modes s) (s_depth s) m' in Ok (set_md s l (s_depth s))) in
      let* s1 := match m with
                 | ObjectNext | ArrayNext => let* r := Append (Some (s_vsp s)) s in Ok (snd r)
                 | ObjectFirst => setm ObjectNext
                 | ArrayFirst => setm ArrayNext
                 | RootFirst => setm RootNext
                 | _ => Ok s
                 end in
      match key with
      | None => Ok (true, s1)
      | Some k =>
          let* s2 := InternalAppendStr k s1 in
          let* r := Append (Some (s_ksp s2)) s2 in
          Ok (true, snd r)
      end.

(** Lines 35-46, 62-73, 89-100: the common text of StartObject, StartArray and StartStr. *)
Definition start (key : option bytes) (c : N) (newmode : mode) (s : ser) : res (bool * ser) :=
  if (length (s_modes s) <=? s_depth s + 1)%nat then Ok (false, s)
  else
    let* r := InternalAppendNextPrefix key 1 s in
    match r with
    | (false, s1) => Ok (false, s1)
    | (true, s1) =>
        let* s2 := put c s1 in
        let* s3 := nul s2 in
        let* l := wr (s_modes s3) (S (s_depth s3)) newmode in
        Ok (true, set_md s3 l (S (s_depth s3)))
    end.
Definition StartObject key := start key 123 ObjectFirst.
Definition StartArray key := start key 91 ArrayFirst.
Definition StartStr key := start key 34 StrMode.

(** Lines 48-60, 75-87, 102-114. *)
Definition finish_scope (ok : mode -> bool) (c : N) (s : ser) : res (bool * ser) :=
  let* m := mode_at s in
  if negb (ok m) then Ok (false, s)
  else if (s_size s <? s_pos s + 1)%nat then Ok (false, s)
  else
    let* s1 := put c s in
    let* s2 := nul s1 in
    match s_depth s2 with
    | O => UB   (* MxModeDepth-- would wrap around; never reached, depth 0 is a root mode *)
    | S d => Ok (true, set_md s2 (s_modes s2) d)
    end.
Definition EndObject := finish_scope is_obj 125.
Definition EndArray := finish_scope is_arr 93.
Definition EndStr := finish_scope is_str 34.

(** json_serializer.cpp:401-423: the loop (411-415) and the function; [buf] is Result. *)
Fixpoint its_loop (fuel : nat) (buf : bytes) (x : nat) (num : N) : res (bytes * nat * N) :=
  match fuel with
  | O => Fuel
  | S f =>
      if (negb (num =? 0) && negb (x =? 0)%nat)%bool then
        let* b := wr buf (x - 1) (num mod 10 + 48) in
        its_loop f b (x - 1) (num / 10)
      else Ok (buf, x, num)
  end.
Definition IntToStringU (buf : bytes) (num : N) : res (bytes * bool) :=
  let size := length buf in
  if (size <? 2)%nat then Ok (buf, false)
  else
    let* b1 := wr buf (size - 1) 0 in
    if num =? 0 then
      let* b2 := wr b1 (size - 2) 48 in
      let* b3 := memmove b2 0 (size - 2) (size - (size - 2)) in Ok (b3, true)
    else
      let* r := its_loop (S size) b1 (size - 1) num in
      let '(b2, x, n) := r in
      if negb (n =? 0) then Ok (b2, false)
      else let* b3 := memmove b2 0 x (size - x) in Ok (b3, true).

(** json_serializer.cpp:425-433; negating the most negative value is undefined. *)
Definition IntToStringI (buf : bytes) (num : Z) : res (bytes * bool) :=
  if (0 <=? num)%Z then IntToStringU buf (Z.to_N num)
  else if (length buf <? 2)%nat then Ok (buf, false)
  else
    let* b1 := wr buf 0 45 in
    let* m := (if (num =? - 2^63)%Z then UB else Ok (Z.to_N (- num))) in
    let* r := IntToStringU (skipn 1 b1) m in
    let '(b2, ok) := r in Ok (firstn 1 b1 ++ b2, ok).

(** Lines 149-155 / 163-169 / 182-188: append the C string in the temporary buffer. *)
Definition append_text (key : option bytes) (t : bytes) (s : ser) : res (bool * ser) :=
  let* r := InternalAppendNextPrefix key (length t) s in
  match r with
  | (false, s1) => Ok (false, s1)
  | (true, s1) => let* s2 := cpy t s1 in Ok (true, s2)
  end.

(** json_serializer.cpp:116-142. *)
Definition AppendNull (key : option bytes) : ser -> res (bool * ser) := append_text key [110; 117; 108; 108].
Definition AppendBool (key : option bytes) (v : bool) (s : ser) : res (bool * ser) :=
  let* r := InternalAppendNextPrefix key 5 s in
  match r with
  | (false, s1) => Ok (false, s1)
  | (true, s1) => let* s2 := cpy (if v then [116;114;117;101] else [102;97;108;115;101]) s1 in Ok (true, s2)
  end.

(** json_serializer.cpp:144-170; the 44-byte temporary starts with arbitrary contents (zeros here,
    shown irrelevant by the proof for every contents). *)
Definition AppendInt (key : option bytes) (v : Z) (s : ser) : res (bool * ser) :=
  let* r := IntToStringI (repeat 0 44) v in
  let '(tmp, ok) := r in
  if negb ok then Ok (false, s) else let* t := cstr tmp in append_text key t s.
Definition AppendUInt (key : option bytes) (v : N) (s : ser) : res (bool * ser) :=
  let* r := IntToStringU (repeat 0 44) v in
  let '(tmp, ok) := r in
  if negb ok then Ok (false, s) else let* t := cstr tmp in append_text key t s.

(** json_serializer.cpp:172-189; [t] is what snprintf("%1.*g") left in the 100-byte temporary: the
    model takes it as an argument. *)
Definition AppendDouble (key : option bytes) (t : bytes) (s : ser) : res (bool * ser) := append_text key t s.

(** json_serializer.cpp:191-213. *)
Definition append_str (calc : ser -> bytes -> bool -> res nat) (key v : option bytes) (s : ser) : res (bool * ser) :=
  match v with
  | None => Ok (false, s)
  | Some t =>
      let* x := calc s t false in
      let* m := mode_at s in
      let* r := (if is_str m then Ok (true, s) else InternalAppendNextPrefix key x s) in
      match r with
      | (false, s1) => Ok (false, s1)
      | (true, s1) =>
          let* m1 := mode_at s1 in
          if (is_str m1 && (s_size s1 <? s_pos s1 + x)%nat)%bool then Ok (false, s1)
          else let* s2 := InternalAppendStr t s1 in Ok (true, s2)
      end
  end.
Definition AppendStr := append_str CalculateStrSize.
Definition AppendStrN := append_str CalculateStrSizeN.

(** json_serializer.cpp:230-249; one turn of the loop closes one scope, or two when the first is
    an object directly inside an array. *)
Fixpoint Finish_loop (fuel : nat) (s : ser) : res (bool * ser) :=
  match fuel with
  | O => Fuel
  | S f =>
      if (s_depth s =? 0)%nat then Ok (true, s)
      else
        let* m := mode_at s in
        let* r := (if is_obj m then EndObject s else Ok (true, s)) in
        match r with
        | (false, s1) => Ok (false, s1)
        | (true, s1) =>
            let* m1 := mode_at s1 in
            let* r2 := (if is_arr m1 then EndArray s1
                        else if is_str m1 then EndStr s1 else Ok (true, s1)) in
            match r2 with
            | (false, s2) => Ok (false, s2)
            | (true, s2) => Finish_loop f s2
            end
        end
  end.
Definition Finish (s : ser) : res (bool * ser) := Finish_loop (S (s_depth s)) s.

(** ** Calls and programs (the vocabulary is in S_Json) *)
Definition do_call (c : call) (s : ser) : res (bool * ser) :=
  match c with
  | CStartObject k => StartObject k s | CEndObject => EndObject s
  | CStartArray k => StartArray k s | CEndArray => EndArray s
  | CStartStr k => StartStr k s | CEndStr => EndStr s
  | CNull k => AppendNull k s | CBool k b => AppendBool k b s
  | CInt k z => AppendInt k z s | CUInt k n => AppendUInt k n s
  | CDouble k t => AppendDouble k t s
  | CStr k v => AppendStr k v s | CStrN k v => AppendStrN k v s
  | CRaw v => Append v s | CFinish => Finish s
  end.

Definition taken (s : ser) : bytes :=
  match s_buf s with None => [] | Some b => firstn (s_pos s) b end.

(** Run a program: the log of the calls with their results and the bytes taken, both since the last
    Restart, and the final state. *)
Fixpoint run (acts : list action) (s : ser) (log : list (call * bool)) (out : bytes)
  : res (list (call * bool) * bytes * ser) :=
  match acts with
  | [] => Ok (log, out, s)
  | Call c :: r => let* q := do_call c s in run r (snd q) (log ++ [(c, fst q)]) out
  | Flush :: r => run r (ResetPos s) log (out ++ taken s)
  | NewBuffer b :: r => run r (SetBuffer s b) log (out ++ taken s)
  | Restart :: r => let* s1 := Reset s in run r s1 [] []
  end.

(** The state [s] is reached by constructing a serializer, giving it a buffer and running the
    program [acts]. *)
Definition reached (esc : bool) (ksp vsp : bytes) (maxdepth : nat) (acts : list action)
  (log : list (call * bool)) (out : bytes) (s : ser) : Prop :=
  exists junk s0 b, (1 <= maxdepth)%nat /\ b <> [] /\ good_program esc acts
  /\ Serializer esc ksp vsp maxdepth junk = Ok s0
  /\ run (NewBuffer b :: acts) s0 [] [] = Ok (log, out, s).
