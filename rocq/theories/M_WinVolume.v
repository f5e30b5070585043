(** Model of the registry lookup inside File::GetPlatformFilename on Windows
    (utf8/utf8_file_dir.cpp:310-340).  Definitions only.  M_WinPath takes it as a function. *)
From Verif Require Import Base M_WinPath.
Open Scope N_scope.

(** The values of HKEY_LOCAL_MACHINE\SYSTEM\MountedDevices: names and data, in the order in which
    RegEnumValueA gives them.  A key that cannot be opened (line 311) is an empty one. *)
Definition registry := list (bytes * bytes).

(** 316: value names are compared without regard to case (ASCII here); 1024 bytes of room *)
Fixpoint query (reg : registry) (name : bytes) : option bytes :=
  match reg with
  | [] => None
  | (n, d) :: r =>
      if list_eq_dec N.eq_dec (map low n) (map low name) then (if (length d <=? N.to_nat 1024)%nat then Some d else None)
      else query r name
  end.

Definition s_dosdevice : bytes := [92; 68; 111; 115; 68; 101; 118; 105; 99; 101; 92]. (* \DosDevice\ *)

(** 323-337: the loop ends at the first match, and at the first value that is too large
    (a name has to fit into 100 bytes with its terminator, data into 1024) *)
Fixpoint enum (reg : registry) (d : bytes) : option N :=
  match reg with
  | [] => None
  | (n, d2) :: r =>
      if (length n <? 100)%nat && (length d2 <=? N.to_nat 1024)%nat then
        if starts false s_dosdevice n && (if list_eq_dec N.eq_dec d d2 then true else false)
        then Some (nth 11 n 0)
        else enum r d
      else None
  end.

(** 311-340 *)
Definition lookup (reg : registry) (name : bytes) : option N :=
  match query reg name with
  | None => None
  | Some d => enum reg d
  end.
