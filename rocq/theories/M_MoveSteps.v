(** File::Move (POSIX) one system call at a time: utf8/utf8_file_dir.cpp 1629-1643, with the Copy of
    M_CopyRace.  Definitions only.

    What is on the disk between two system calls is what is left if the process ends there.  Nobody
    else does anything.  Otherwise as in M_CopyRace; in particular writes succeed. *)
From Verif Require Import Base S_Attr S_Secret S_CopyRace M_Attr M_CopyRace.

Inductive mpc :=
  | MRename                     (* 1635 *)
  | MCopy (c : pc)              (* 1638 *)
  | MUnlink (c : nat * nat)     (* 1639 *)
  | MDone (ok : bool).

Section Move.
Variable strip : N -> N.
Variable u : user.
Variable mask : N.
Variable newgroup : N.
Variable buf0 : bytes.

Inductive mstep : fs * mpc -> fs * mpc -> Prop :=
  (** both names in one file system; rename of a file over itself does nothing *)
  | m_rename f i n : src_is f = Some i -> node f i = Some n -> dst_is f <> Some i -> mstep (f, MRename) (FS None (Some i) (node f), MDone true)
  | m_rename_same f i : src_is f = Some i -> dst_is f = Some i -> mstep (f, MRename) (f, MDone true)
  | m_rename_no f : mstep (f, MRename) (f, MCopy PStat1)
  | m_copy f c f' c' : own strip u mask newgroup buf0 (f, c) (f', c') -> mstep (f, MCopy c) (f', MCopy c')
  | m_copy_no f : mstep (f, MCopy (PEnd None)) (f, MDone false)
  | m_copied f r : mstep (f, MCopy (PEnd (Some r))) (f, MUnlink r)
  (** the result of unlink is ignored *)
  | m_unlink f r : mstep (f, MUnlink r) (FS None (dst_is f) (node f), MDone true)
  | m_unlink_no f r : mstep (f, MUnlink r) (f, MDone true).

(** The moments of a call *)
Inductive msteps : fs * mpc -> fs * mpc -> Prop :=
  | ms_nil x : msteps x x
  | ms_step x y z : msteps x y -> mstep y z -> msteps x z.
End Move.
