(** Model of utf8/utf8_file_dir.cpp 1075-1091: Dir::Getcwd on Windows.  Definitions only.

    [cur]: the current directory, in 16-bit units without the terminator.  By its documentation
    GetCurrentDirectoryW stores it if it fits with its terminator, and otherwise returns the size
    it needs, which is not zero, and says nothing about the array; here the array is then left alone.
    [] stands for a call that fails.  [gw] and [g]: what the local arrays hold at first. *)
From Verif Require Import Base M_Utf8 M_WinAppInfo M_WinPath.
Open Scope N_scope.

Definition CAP : nat := N.to_nat 8192.

(** 1080 *)
Definition sys_getcwd (cur gw : list N) : list N :=
  if (length cur <? length gw)%nat then cur ++ 0 :: skipn (S (length cur)) gw else gw.

Definition WGetcwd (sgn : bool) (vol : bytes -> option N) (gw : list N) (g : bytes) (cur : list N) (b : bytes) : res (bytes * bool) :=
  match cur with
  | [] => Ok (b, false)
  | _ =>
      let* w := wr (sys_getcwd cur gw) (CAP - 1) 0 in                 (* 1081 *)
      let* s := cstr w in                                            (* wcslen in 1087 *)
      let* (d, _) := to_buffer (s ++ [0]) g CAP in                   (* 1087 *)
      let* name := cstr d in                                         (* strlen in 232 *)
      WGetPlatformFilename sgn vol b name false                      (* 1088 *)
  end.
