(** Specification of Windows file names and paths.  Nothing here refers to the model. *)
From Verif Require Import Base S_Path.
Open Scope N_scope.

(** Slashes count as backslashes. *)
Definition win (s : bytes) : bytes := map (fun c => if c =? 47 then 92 else c) s.

(** ASCII upper case. *)
Definition upper (c : N) : N := if (97 <=? c) && (c <=? 122) then c - 32 else c.
Definition letter (c : N) : Prop := 65 <= c <= 90 \/ 97 <= c <= 122.

(** The components of a path: the texts between backslashes. *)
Fixpoint wsplit (s : bytes) : list bytes :=
  match s with
  | [] => [[]]
  | c :: r => if c =? 92 then [] :: wsplit r
              else match wsplit r with [] => [[c]] | h :: t => (c :: h) :: t end
  end.
Definition wrender (st : list bytes) : bytes := flat_map (fun c => 92 :: c) st.

(** The text before the first dot. *)
Fixpoint stem (w : bytes) : bytes :=
  match w with [] => [] | c :: r => if c =? 46 then [] else c :: stem r end.

(** The names of devices: NUL CON AUX PRN CLOCK$ and LPT, COM with a digit, in any case. *)
Definition reserved (w : bytes) : Prop :=
  In (map upper w) [[78; 85; 76]; [67; 79; 78]; [65; 85; 88]; [80; 82; 78]; [67; 76; 79; 67; 75; 36]] \/
  exists d, 48 <= d <= 57 /\ (map upper w = [76; 80; 84; d] \/ map upper w = [67; 79; 77; d]).

(** A component Windows takes for a device, whatever its extension. *)
Definition is_device (w : bytes) : Prop := reserved (stem w).

(** Characters a component may have; bytes from 128 on are negative when char is signed. *)
Definition wallowed (sgn : bool) (c : N) : Prop :=
  32 <= c < 256 /\ c <> 127 /\ ~ In c [58; 42; 63; 34; 60; 62; 124] /\ (sgn = true -> c < 128).

(** The prefixes. *)
Definition p_uni : bytes := [92; 92; 63; 92].
Definition p_dot : bytes := [92; 92; 46; 92].
Definition p_unc : bytes := p_uni ++ [85; 78; 67; 92].
Definition p_dev : bytes := p_uni ++ [68; 69; 86; 73; 67; 69; 92].
Definition p_vol : bytes := [86; 111; 108; 117; 109; 101; 123].

(** [t] starts with [p], in whatever case. *)
Definition begins (p t : bytes) : Prop := exists u r, t = u ++ r /\ map upper u = map upper p.
Definition begins_with (p t : bytes) : Prop := exists r, t = p ++ r.

(** The NT spelling of the prefix is turned into the usual one. *)
Definition canon (t : bytes) : bytes :=
  if list_eq_dec N.eq_dec (firstn 4 t) [92; 63; 63; 92] then p_uni ++ skipn 4 t else t.

(** The ways a text with backslashes can name something: what is left of the name once its
    prefix is taken off, and the text it is normalised to.  Bare device names are not here. *)
Inductive form : bytes -> bytes -> bytes -> Prop :=
| f_drive c r : letter c -> form (c :: 58 :: r) r (p_uni ++ upper c :: 58 :: r)
| f_unidrive c r : letter c -> form (p_uni ++ c :: 58 :: r) r (p_uni ++ upper c :: 58 :: r)
| f_unc u r : map upper u = p_unc -> (forall c r', r = c :: 58 :: r' -> ~ letter c) -> form (u ++ r) r (u ++ r)
| f_uncdrive u c r : map upper u = p_unc -> letter c -> form (u ++ c :: 58 :: r) r (u ++ upper c :: 58 :: r)
| f_uni r : (forall c r', r = c :: 58 :: r' -> ~ letter c) -> ~ begins p_unc (p_uni ++ r) -> ~ begins p_dev (p_uni ++ r) ->
    form (p_uni ++ r) r (p_unc ++ r)
| f_net r : ~ begins_with p_uni (92 :: 92 :: r) -> ~ begins_with p_dot (92 :: 92 :: r) -> form (92 :: 92 :: r) (92 :: 92 :: r) (p_unc ++ r)
| f_volume r : form (p_vol ++ r) (p_vol ++ r) (p_uni ++ p_vol ++ r)
| f_plain t : ~ begins_with [92; 92] t -> ~ begins_with p_vol t -> (forall c r', t = c :: 58 :: r' -> ~ letter c) -> form t t t.

(** The components where a device name counts: all, or those after the first one when a prefix
    was taken off. *)
Definition looked_at (t r : bytes) : list bytes := if list_eq_dec N.eq_dec t r then wsplit r else tl (wsplit r).

(** A name that is accepted, and its normal form. *)
Definition accepts (sgn : bool) (name out : bytes) : Prop :=
  name <> [] /\ exists r, form (canon (win name)) r out /\ Forall (wallowed sgn) r /\
  Forall (fun w => ~ is_device w) (looked_at (canon (win name)) r).

(** Volumes: a drive, or a host on the network. *)
Inductive volume : bytes -> Prop :=
| v_drive c : letter c -> volume (p_uni ++ [c; 58])
| v_host u h : map upper u = p_unc -> h <> [] -> ~ In 92 h -> hd 0 h <> 46 -> volume (u ++ h).

(** A path on a volume: nothing, or something that starts at the root. *)
Definition rooted (p : bytes) : Prop := p = [] \/ exists r, p = 92 :: r.

(** What [n] denotes on the same volume, seen from the directory [d]. *)
Definition wplace (d n : bytes) : list bytes :=
  if hd 0 n =? 92 then resolve [] (wsplit n) else resolve (resolve [] (wsplit d)) (wsplit n).
