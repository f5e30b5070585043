(** Model of Dir::Open on Windows (utf8/utf8_file_dir.cpp:1029-1049).  Definitions only.

    FindFirstFileW is given a path whose last component may have wildcards; what it finds is not
    modelled, only the text it is given. *)
From Verif Require Import Base S_Utf8 M_Utf8 M_WinPath.
Open Scope N_scope.

(** 1033-1045 — [g2], [g3], [cwd]: as for WGetAbsoluteFilename; [gd], [gw]: Dirname2 and Dirname3
    as they are at first.  What Dirname3 holds when FindFirstFileW is called; [None]: false is
    returned before. *)
Definition WDir_Pattern (sgn : bool) (vol : bytes -> option N) (g2 g3 : bytes) (cwd : option bytes) (gd gw : bytes) (name : bytes) : res (option (list N)) :=
  let* (r, ok) := WGetAbsoluteFilename sgn vol g2 g3 cwd gd None name true in
  if negb ok then Ok None
  else
    let* s := cstr r in
    let y := length s in
    if (N.to_nat 8191 <=? y)%nat then Ok None
    else
      let* r1 := wr r y 42 in
      let* r2 := wr r1 (y + 1) 0 in
      let* (o, _) := ConvertFromUTF8 Wd2 (firstn (y + 2) r2) (Some gw) (length gw) in
      match o with Some b => Ok (Some b) | None => UB end.
