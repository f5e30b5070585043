(** Specification: JSON texts (RFC 8259) and the values they denote, and the value tree that a
    sequence of serializer calls describes.  Independent of the serializer's code. *)
From Verif Require Import Base S_Numeral.
Open Scope N_scope.

Inductive jv :=
| JNull | JBool (b : bool)
| JInt (z : Z)               (* an integer, written in decimal *)
| JNum (t : bytes)           (* any other number, by its text *)
| JStr (s : bytes)
| JArr (vs : list jv)
| JObj (fs : list (bytes * jv)).

(** White space. *)
Definition wsc (c : N) : Prop := c = 32 \/ c = 9 \/ c = 10 \/ c = 13.
Definition ws (t : bytes) : Prop := Forall wsc t.

(** The contents of a string literal (between the quotes) decoded; [None] when it is not one.
    \u escapes are left out: the serializer never writes them, and leaving them out only makes
    the claim "is a literal" harder. *)
Fixpoint unescape (t : bytes) : option bytes :=
  match t with
  | [] => Some []
  | c :: r =>
      if c =? 92 then
        match r with
        | [] => None
        | e :: r' =>
            let d := if e =? 34 then Some 34 else if e =? 92 then Some 92 else if e =? 47 then Some 47
                     else if e =? 98 then Some 8 else if e =? 102 then Some 12 else if e =? 110 then Some 10
                     else if e =? 114 then Some 13 else if e =? 116 then Some 9 else None in
            match d, unescape r' with Some x, Some y => Some (x :: y) | _, _ => None end
        end
      else if (c <? 32) || (c =? 34) then None
      else match unescape r with Some y => Some (c :: y) | None => None end
  end.

Definition literal (s t : bytes) : Prop := exists u, t = 34 :: u ++ [34] /\ unescape u = Some s.

(** Numbers: optional minus, integer part without leading zeros, optional fraction and exponent. *)
Definition digit (c : N) : Prop := 48 <= c <= 57.
Definition digits (t : bytes) : Prop := t <> [] /\ Forall digit t.
Definition int_part (t : bytes) : Prop := t = [48] \/ (digits t /\ hd 0 t <> 48).
Definition number (t : bytes) : Prop :=
  exists m i f e, t = m ++ i ++ f ++ e
  /\ (m = [] \/ m = [45]) /\ int_part i
  /\ (f = [] \/ exists d, f = 46 :: d /\ digits d)
  /\ (e = [] \/ exists c s d, e = c :: s ++ d /\ (c = 101 \/ c = 69) /\ (s = [] \/ s = [43] \/ s = [45]) /\ digits d).

(** Decimal text of an integer. *)
Definition dec_text (z : Z) (t : bytes) : Prop :=
  exists ds, is_numeral 10 (Z.to_N (Z.abs z)) ds /\ t = (if (z <? 0)%Z then [45] else []) ++ map glyph ds.

(** [join ps]: the pieces separated by commas. *)
Fixpoint join (ps : list bytes) : bytes :=
  match ps with
  | [] => []
  | [p] => p
  | p :: r => p ++ 44 :: join r
  end.

(** [value v t]: the text [t] denotes [v] (no white space around it). *)
Inductive denotes : jv -> bytes -> Prop :=
| v_null : denotes JNull [110; 117; 108; 108]
| v_true : denotes (JBool true) [116; 114; 117; 101]
| v_false : denotes (JBool false) [102; 97; 108; 115; 101]
| v_int z t : dec_text z t -> denotes (JInt z) t
| v_num t : number t -> denotes (JNum t) t
| v_str s t : literal s t -> denotes (JStr s) t
| v_arr_nil w : ws w -> denotes (JArr []) (91 :: w ++ [93])
| v_arr vs ps : vs <> [] ->
    Forall2 (fun v p => exists a t b, p = a ++ t ++ b /\ ws a /\ ws b /\ denotes v t) vs ps ->
    denotes (JArr vs) (91 :: join ps ++ [93])
| v_obj_nil w : ws w -> denotes (JObj []) (123 :: w ++ [125])
| v_obj fs ps : fs <> [] ->
    Forall2 (fun f p => exists a k b c t d, p = a ++ k ++ b ++ 58 :: c ++ t ++ d
                        /\ ws a /\ ws b /\ ws c /\ ws d /\ literal (fst f) k /\ denotes (snd f) t) fs ps ->
    denotes (JObj fs) (123 :: join ps ++ [125]).

(** A JSON text. *)
Definition document (v : jv) (t : bytes) : Prop :=
  exists a u b, t = a ++ u ++ b /\ ws a /\ ws b /\ denotes v u.

(** ** What a sequence of calls describes *)

(** An open scope, with the key it was opened under. *)
Inductive frame :=
| FRoot (v : option jv)
| FObj (fs : list (bytes * jv))
| FArr (vs : list jv)
| FStr (s : bytes).
Definition stack := list (option bytes * frame).   (* innermost first *)

(** A value goes into a scope: with a key into an object, without into an array or an empty root. *)
Definition place (k : option bytes) (v : jv) (f : frame) : option frame :=
  match f, k with
  | FRoot None, None => Some (FRoot (Some v))
  | FObj fs, Some k => Some (FObj (fs ++ [(k, v)]))
  | FArr vs, None => Some (FArr (vs ++ [v]))
  | _, _ => None
  end.
Definition placed (k : option bytes) (v : jv) (st : stack) : option stack :=
  match st with
  | (k0, f) :: r => match place k v f with Some f' => Some ((k0, f') :: r) | None => None end
  | [] => None
  end.
Definition opened (k : option bytes) (new : frame) (st : stack) : option stack :=
  match placed k JNull st with Some _ => Some ((k, new) :: st) | None => None end.
Definition frame_value (f : frame) : option jv :=
  match f with
  | FRoot _ => None | FObj fs => Some (JObj fs) | FArr vs => Some (JArr vs) | FStr s => Some (JStr s)
  end.
Definition closed (st : stack) : option stack :=
  match st with
  | (k, f) :: r => match frame_value f with Some v => placed k v r | None => None end
  | [] => None
  end.
Fixpoint close_all (n : nat) (st : stack) : option stack :=
  match n with
  | O => Some st
  | S m => match closed st with Some st' => close_all m st' | None => None end
  end.

(** ** The calls a program can make
    A NUL-terminated string is the list of its bytes, NULL is [None]; [CStrN] is the overload of
    AppendStr with an explicit size, [CRaw] is Append; [CDouble] carries the text that snprintf
    made of the number. *)
Inductive call :=
| CStartObject (k : option bytes) | CEndObject
| CStartArray (k : option bytes) | CEndArray
| CStartStr (k : option bytes) | CEndStr
| CNull (k : option bytes) | CBool (k : option bytes) (b : bool)
| CInt (k : option bytes) (z : Z) | CUInt (k : option bytes) (n : N)
| CDouble (k : option bytes) (t : bytes)
| CStr (k : option bytes) (v : option bytes) | CStrN (k : option bytes) (v : option bytes)
| CRaw (v : option bytes) | CFinish.

(** What a program does with a serializer while writing one document: calls, taking the bytes
    written so far and continuing at the start of the buffer (GetBuffer/GetCurrPos, ResetPos),
    continuing in another buffer (SetBuffer, after taking the bytes written so far), or dropping
    everything and starting another document in the same buffer (Reset). *)
Inductive action := Call (c : call) | Flush | NewBuffer (b : bytes) | Restart.

Definition step (c : call) (st : stack) : option stack :=
  match c with
  | CStartObject k => opened k (FObj []) st
  | CStartArray k => opened k (FArr []) st
  | CStartStr k => opened k (FStr []) st
  | CEndObject => match st with (_, FObj _) :: _ => closed st | _ => None end
  | CEndArray => match st with (_, FArr _) :: _ => closed st | _ => None end
  | CEndStr => match st with (_, FStr _) :: _ => closed st | _ => None end
  | CNull k => placed k JNull st
  | CBool k b => placed k (JBool b) st
  | CInt k z => placed k (JInt z) st
  | CUInt k n => placed k (JInt (Z.of_N n)) st
  | CDouble k t => placed k (JNum t) st
  | CStr k (Some s) | CStrN k (Some s) =>
      match st with
      | (k0, FStr u) :: r => Some ((k0, FStr (u ++ s)) :: r)
      | _ => placed k (JStr s) st
      end
  | CStr _ None | CStrN _ None | CRaw None => None
  | CRaw (Some t) =>   (* verbatim text: inside a string it is content, elsewhere layout *)
      match st with
      | (k0, FStr u) :: r => Some ((k0, FStr (u ++ t)) :: r)
      | _ => Some st
      end
  | CFinish => close_all (length st - 1) st
  end.

(** [history st log st']: the calls of [log], with the results they returned, lead from the open
    scopes [st] to [st'].  A refused call changes nothing; Finish that returns false has closed
    some of the scopes. *)
Inductive history : stack -> list (call * bool) -> stack -> Prop :=
| h_nil st : history st [] st
| h_ok st c st1 log st2 : step c st = Some st1 -> history st1 log st2 -> history st ((c, true) :: log) st2
| h_no st c log st2 : c <> CFinish -> history st log st2 -> history st ((c, false) :: log) st2
| h_part st n st1 log st2 : (n < length st - 1)%nat -> close_all n st = Some st1 ->
    history st1 log st2 -> history st ((CFinish, false) :: log) st2.

(** A fresh document. *)
Definition fresh : stack := [(None, FRoot None)].

(** Splitters that are punctuation with white space around it. *)
Definition splitter (c : N) (t : bytes) : Prop := exists a b, t = a ++ c :: b /\ ws a /\ ws b.

(** Strings the serializer can represent faithfully: no control characters other than the five
    with a named escape, and no slash unless slashes are escaped. *)
Definition clean (esc : bool) (s : bytes) : Prop :=
  Forall (fun c => (32 <= c \/ c = 8 \/ c = 9 \/ c = 10 \/ c = 12 \/ c = 13) /\ (c = 47 -> esc = true)) s.

(** The text that closes all open scopes, innermost first. *)
Definition closing (st : stack) : bytes :=
  map (fun e => match snd e with FObj _ => 125 | FArr _ => 93 | _ => 34 end) (firstn (length st - 1) st).

(** ** Room: the number of bytes a call asks for
    One byte per character, two for one that is escaped; two for quotes; the separator when the
    scope already has a member; the key with its quotes and separator; false and true both count
    as five. *)
Definition charcost (esc : bool) (c : N) : nat :=
  if existsb (N.eqb c) [34; 92; 8; 12; 10; 13; 9] then 2 else if (c =? 47) && esc then 2 else 1.
Fixpoint strcost (esc : bool) (s : bytes) : nat :=
  match s with [] => 0 | c :: r => charcost esc c + strcost esc r end.
Definition prefixcost (esc : bool) (ksp vsp : bytes) (k : option bytes) (st : stack) : nat :=
  (match st with
  | (_, FObj (_ :: _)) :: _ | (_, FArr (_ :: _)) :: _ => length vsp
  | _ => 0
  end
  + match k with Some key => 2 + strcost esc key + length ksp | None => 0 end)%nat.
Definition cost (esc : bool) (ksp vsp : bytes) (c : call) (st : stack) (n : nat) : Prop :=
  let pre k := prefixcost esc ksp vsp k st in
  match c with
  | CStartObject k | CStartArray k | CStartStr k => n = (pre k + 1)%nat
  | CEndObject | CEndArray | CEndStr => n = 1%nat
  | CNull k => n = (pre k + 4)%nat
  | CBool k _ => n = (pre k + 5)%nat
  | CInt k z => exists t, dec_text z t /\ n = (pre k + length t)%nat
  | CUInt k u => exists t, dec_text (Z.of_N u) t /\ n = (pre k + length t)%nat
  | CDouble k t => n = (pre k + length t)%nat
  | CStr k (Some s) | CStrN k (Some s) =>
      n = match st with (_, FStr _) :: _ => strcost esc s | _ => (pre k + (2 + strcost esc s))%nat end
  | CRaw (Some t) => n = length t
  | CFinish => n = (length st - 1)%nat
  | _ => False
  end.

(** Calls that open a scope. *)
Definition opens (c : call) : bool :=
  match c with CStartObject _ | CStartArray _ | CStartStr _ => true | _ => false end.

(** Arguments in the range of their C++ type (INT64_MIN excepted); for the sized AppendStr, text
    without characters that are escaped. *)
Definition argok (esc : bool) (c : call) : Prop :=
  match c with
  | CInt _ z => (- 2^63 < z < 2^63)%Z
  | CUInt _ n => n < W64
  | CStrN _ (Some s) => Forall (fun x => charcost esc x = 1%nat) s
  | _ => True
  end.

Definition good_program (esc : bool) (acts : list action) : Prop :=
  (forall c, In (Call c) acts -> argok esc c) /\ (forall b, In (NewBuffer b) acts -> b <> []).

(** Arguments that have a faithful JSON form. *)
Definition cleank (esc : bool) (k : option bytes) : Prop :=
  match k with Some s => clean esc s | None => True end.
Definition faithful (esc : bool) (c : call) : Prop :=
  match c with
  | CStartObject k | CStartArray k | CStartStr k | CNull k | CBool k _ | CInt k _ | CUInt k _ => cleank esc k
  | CDouble k t => cleank esc k /\ number t
  | CStr k v | CStrN k v => cleank esc k /\ cleank esc v
  | CRaw (Some t) => ws t
  | _ => True
  end.
(** Layout added with Append is white space, and only spaces when string scopes are used. *)
Definition layout_ok (acts : list action) : Prop :=
  (exists k, In (Call (CStartStr k)) acts) -> forall t, In (Call (CRaw (Some t))) acts -> Forall (fun c => c = 32) t.
