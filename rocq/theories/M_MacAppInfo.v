(** utf8/utf8_appinfo.cpp 105-161, GetExecutableFilename with the Apple part (124-127) compiled in.
    Definitions only; the buffer and the answer as in M_AppInfo.

    [mac_path]: the path of the running executable as the kernel knows it; None: not known.  That
    system has no /proc, so the four links of 112-121 cannot be read, and leave the buffer alone. *)
From Verif Require Import Base M_AppInfo.
Open Scope N_scope.

Record mac := Mac {
  mac_path : option bytes;
  mac_realpath : bytes -> option bytes
}.

Definition MAXSIZE : nat := N.to_nat 4096.

(** 125: proc_pidpath(getpid(), Buffer, size) stores the path with its terminator if both fit, and
    gives its length; else it gives 0 (not -1) and stores nothing. *)
Definition proc_pidpath (m : mac) (b : bytes) (size : nat) : res (bytes * nat) :=
  match mac_path m with
  | Some p => if (length p <? size)%nat then let* b1 := blit b 0 (p ++ [0]) in Ok (b1, length p) else Ok (b, O)
  | None => Ok (b, O)
  end.

(** 105-161.  126: z is 0 or more here, so that strlen(Buffer) is always called. *)
Definition MacExecutableFilename (m : mac) (b : bytes) (argv0 : option bytes) : res answer :=
  let z2 := length b in
  let* b0 := clear b in
  let* (b1, _) := proc_pidpath m b0 (if (MAXSIZE <? z2)%nat then MAXSIZE else z2) in
  let* t := cstr b1 in
  let z := length t in
  let* b2 := (if (z2 =? 0)%nat then Ok b1 else wr b1 (z2 - 1) 0) in
  let* (b3, name) :=
    (if (0 <? z)%nat then
       let* b3 := (if (z <? z2)%nat then wr b2 z 0 else Ok b2) in
       let* s := cstr b3 in Ok (b3, mac_realpath m s)
     else match argv0 with None => Ok (b2, None) | Some a => Ok (b2, mac_realpath m a) end) in
  match name with
  | None => Ok (b3, None)
  | Some f =>
      if (z2 <=? length f)%nat then Ok (b3, None)
      else
        let* b4 := strcpy b3 f in
        let* s := cstr b4 in
        Ok (b4, Some (S (length s)))
  end.
