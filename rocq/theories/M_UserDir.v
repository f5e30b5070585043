(** utf8/utf8_appinfo.cpp 177-193, GetCurrentUserAppStorageDir (POSIX), with the two sources of the home
    directory told apart.  Definitions only; buffer and answer as in M_AppInfo. *)
From Verif Require Import Base M_AppInfo.
Open Scope N_scope.

(** [var_home]: the environment variable HOME.  [passwd]: the entry of the user in the password
    database, None if there is none (getpwuid gives NULL); of it pw_dir only, which may be NULL. *)
Record account := Account { var_home : option bytes; passwd : option (option bytes) }.

(** 183-185.  184: a NULL entry is dereferenced. *)
Definition home_dir (u : account) : res (option bytes) :=
  match var_home u with
  | Some h => Ok (Some h)
  | None => match passwd u with None => UB | Some d => Ok d end
  end.

(** 177-193 *)
Definition UserStorageDir (u : account) (b : bytes) (appdir : option bytes) : res answer :=
  let* b0 := clear b in
  let* o := home_dir u in
  match o with
  | None => Ok (b0, None)
  | Some h =>
      if (length b <? length h)%nat then Ok (b0, None)
      else
        let* b1 := strcpy b0 h in
        GetNIXStorageDir b1 (Some [46]) appdir (length h)
  end.
