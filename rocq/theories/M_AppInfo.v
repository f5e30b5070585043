(** Model of utf8/utf8_appinfo.cpp, POSIX part (lines 103-241).  Definitions only.

    [b] is Buffer; its length is the value of BufferSize on entry.  The answer is [None] for
    false (BufferSize is then 0) and [Some n] for true with BufferSize = n.  C strings that
    come from outside (HOME, AppDir, Argv0, results of realpath) are their bytes before the
    terminator.  The Apple part (lines 124-127) is in M_MacAppInfo. *)
From Verif Require Import Base.
Open Scope N_scope.

(** What the functions ask the system. *)
Record env := Env {
  home : option bytes;             (* getenv HOME, or pw_dir of the user when it is not set *)
  links : list (option bytes);     (* contents of the four links of lines 112-121; None: fails *)
  realpath : bytes -> option bytes (* realpath(name, NULL) *)
}.

Definition answer := (bytes * option nat)%type.

(** Lines 107-109, 165-167, 179-181, 197-199 *)
Definition clear (b : bytes) : res bytes :=
  if (length b =? 0)%nat then Ok b else wr b 0 0.

(** strcpy(Buffer, s) *)
Definition strcpy (b s : bytes) : res bytes := blit b 0 (s ++ [0]).

(** 212, 222: a separator, unless the last character is one.  With z = 0 this reads Buffer[-1]. *)
Definition put_slash (b : bytes) (z : nat) : res (bytes * nat) :=
  if (z <? length b)%nat then
    match z with
    | O => UB
    | S k =>
        let* c := rd b k in
        if c =? 47 then Ok (b, z) else let* b1 := wr b z 47 in Ok (b1, S z)
    end
  else Ok (b, z).

(** 217, 220: copy as much as fits *)
Fixpoint put_str (b : bytes) (z : nat) (s : bytes) : res (bytes * nat) :=
  match s with
  | [] => Ok (b, z)
  | c :: s' => if (z <? length b)%nat then let* b1 := wr b z c in put_str b1 (S z) s' else Ok (b, z)
  end.

(** 210-229 — GetNIXStorageDir *)
Definition GetNIXStorageDir (b : bytes) (prefix appdir : option bytes) (z : nat) : res answer :=
  let* (b1, z1) := put_slash b z in
  let* (b4, z4) :=
    match appdir with
    | None => Ok (b1, z1)
    | Some a =>
        let* (b2, z2) := match prefix with None => Ok (b1, z1) | Some p => put_str b1 z1 p end in
        let* (b3, z3) := put_str b2 z2 a in
        put_slash b3 z3
    end in
  let* (b5, z5) := (if (z4 <? length b4)%nat then let* b5 := wr b4 z4 0 in Ok (b5, S z4) else Ok (b4, z4)) in
  if (z5 =? length b5)%nat then Ok (b5, None) else Ok (b5, Some z5).

(** 163-175: /var/lib/ *)
Definition GetSystemAppStorageDir (b : bytes) (appdir : option bytes) : res answer :=
  let* b0 := clear b in
  if (length b <? 10)%nat then Ok (b0, None)
  else
    let* b1 := strcpy b0 [47;118;97;114;47;108;105;98;47] in
    let* s := cstr b1 in
    GetNIXStorageDir b1 None appdir (length s).

(** 177-193 *)
Definition GetCurrentUserAppStorageDir (e : env) (b : bytes) (appdir : option bytes) : res answer :=
  let* b0 := clear b in
  match home e with
  | None => Ok (b0, None)
  | Some h =>
      if (length b <? length h)%nat then Ok (b0, None)
      else
        let* b1 := strcpy b0 h in
        GetNIXStorageDir b1 (Some [46]) appdir (length h)
  end.

(** 195-207: /tmp/ *)
Definition GetTempStorageDir (b : bytes) : res answer :=
  let* b0 := clear b in
  if (length b <? 5)%nat then Ok (b0, None)
  else
    let* b1 := strcpy b0 [47;116;109;112;47] in
    GetNIXStorageDir b1 None None 5.

(** readlink(name, Buffer, z2): the contents as far as they fit, without terminator; it fails
    when z2 is 0. *)
Definition readlink (b : bytes) (l : option bytes) : res (bytes * option nat) :=
  match l with
  | None => Ok (b, None)
  | Some c =>
      if (length b =? 0)%nat then Ok (b, None)
      else let s := firstn (length b) c in let* b1 := blit b 0 s in Ok (b1, Some (length s))
  end.

(** 112-121 *)
Fixpoint first_link (b : bytes) (ls : list (option bytes)) : res (bytes * option nat) :=
  match ls with
  | [] => Ok (b, None)
  | l :: r =>
      let* (b1, z) := readlink b l in
      match z with Some n => Ok (b1, Some n) | None => first_link b1 r end
  end.

(** 105-161 *)
Definition GetExecutableFilename (e : env) (b : bytes) (argv0 : option bytes) : res answer :=
  let z2 := length b in
  let* b0 := clear b in
  let* (b1, z) := first_link b0 (links e) in
  let* b2 := (if (z2 =? 0)%nat then Ok b1 else wr b1 (z2 - 1) 0) in
  let* (b3, name) :=
    match z with
    | Some (S n) =>
        let* b3 := (if (S n <? z2)%nat then wr b2 (S n) 0 else Ok b2) in
        let* s := cstr b3 in Ok (b3, realpath e s)
    | _ => match argv0 with None => Ok (b2, None) | Some a => Ok (b2, realpath e a) end
    end in
  match name with
  | None => Ok (b3, None)
  | Some f =>
      if (z2 <=? length f)%nat then Ok (b3, None)
      else
        let* b4 := strcpy b3 f in
        let* s := cstr b4 in
        Ok (b4, Some (S (length s)))
  end.

(** 237 *)
Fixpoint back (b : bytes) (n : nat) : res nat :=
  match n with
  | O => Ok O
  | S k => let* c := rd b k in if ((c =? 47) || (c =? 92))%bool then Ok n else back b k
  end.

(** 233-241 *)
Definition GetExecutablePath (e : env) (b : bytes) (argv0 : option bytes) : res answer :=
  let* (b1, r) := GetExecutableFilename e b argv0 in
  match r with
  | None => Ok (b1, None)
  | Some n =>
      let* k := back b1 n in
      let* b2 := wr b1 k 0 in
      Ok (b2, Some (S k))
  end.
