(** File::Copy (POSIX) among other processes: utf8/utf8_file_dir.cpp 1584-1627, one system call at a
    time.  Definitions only.

    Both names were accepted by GetPlatformFilename and stand for regular files or nothing.  The lock
    of File::Open refuses the file that is already open for reading; locks of others and the times
    that reading and writing set are left out.  Reading an open file gives all that is asked for or
    left, writing writes everything.  [d] and [s] after the files are closed are kept for the theorems
    only. *)
From Verif Require Import Base S_Attr S_Secret S_CopyRace M_Attr.
Open Scope N_scope.

Inductive pc :=
  | PStat1                                                    (* 1591 *)
  | PStat2 (a : attrs) (i : nat)                              (* 1593: SrcStat and its st_ino *)
  | POpen1 (a : attrs)                                        (* 1597 *)
  | POpen2 (a : attrs) (s : nat)                              (* 1598 *)
  | PRead (a : attrs) (s d rp wp : nat) (buf : bytes)         (* 1604; the two positions, and Buffer *)
  | PWrite (a : attrs) (s d rp wp : nat) (buf : bytes)        (* 1606 *)
  | PTrunc (a : attrs) (s d pos : nat)                        (* 1610 *)
  | PChown (a : attrs) (s d : nat)                            (* 1616 *)
  | PChmod (a : attrs) (s d : nat)                            (* 1617 *)
  | PStat3 (a : attrs) (s d : nat)                            (* 1620 *)
  | PUtime (a : attrs) (s d : nat) (sec : N)                  (* 1624 *)
  | PEnd (r : option (nat * nat)).                            (* [None]: false *)

Section Copy.
Variable strip : N -> N.       (* see M_Attr *)
Variable u : user.             (* who copies *)
Variable mask : N.             (* umask *)
Variable newgroup : N.         (* group of new files *)
Variable buf0 : bytes.         (* what Buffer (1600) holds at first *)

Definition set_node (f : fs) (i : nat) (n : file) : fs :=
  FS (src_is f) (dst_is f) (fun j => if Nat.eq_dec j i then Some n else node f j).
(** a system call that changes attributes, on a name *)
Definition by_name (f : fs) (g : attrs -> attrs) : fs :=
  match dst_is f with
  | Some i => match node f i with Some n => set_node f i (Fl (g (attr n)) (data n)) | None => f end
  | None => f
  end.
(** 1600 *)
Definition COPY : nat := N.to_nat 8192.
(** write at a position *)
Definition put (l : bytes) (pos : nat) (c : bytes) : bytes :=
  firstn pos l ++ repeat 0 (pos - length l) ++ c ++ skipn (pos + length c) l.
(** ftruncate *)
Definition cut (l : bytes) (pos : nat) : bytes := firstn pos l ++ repeat 0 (pos - length l).

Inductive own : fs * pc -> fs * pc -> Prop :=
  | o_stat1 f i n : src_is f = Some i -> node f i = Some n -> own (f, PStat1) (f, PStat2 (attr n) i)
  | o_stat1_no f : src_is f = None -> own (f, PStat1) (f, PEnd None)
  | o_stat2_same f a i : dst_is f = Some i -> own (f, PStat2 a i) (f, PEnd None)
  | o_stat2 f a i : dst_is f <> Some i -> own (f, PStat2 a i) (f, POpen1 a)
  | o_open1 f a s n : src_is f = Some s -> node f s = Some n -> may_read u (attr n) = true -> own (f, POpen1 a) (f, POpen2 a s)
  | o_open1_no f a : own (f, POpen1 a) (f, PEnd None)
  | o_open2 f a s d n : dst_is f = Some d -> d <> s -> node f d = Some n -> may_write u (attr n) = true -> own (f, POpen2 a s) (f, PRead a s d 0 0 buf0)
  | o_open2_new f a s d now : dst_is f = None -> node f d = None ->
      own (f, POpen2 a s)
          (FS (src_is f) (Some d) (node (set_node f d (Fl (Attrs (euid u) newgroup (N.ldiff (perms a mod 512) mask) now now) []))), PRead a s d 0 0 buf0)
  | o_open2_no f a s : own (f, POpen2 a s) (f, PEnd None)
  (** Read stores what it got at the start of Buffer; Write is called with the size of Buffer *)
  | o_read f a s d rp wp buf n : node f s = Some n -> (rp < length (data n))%nat ->
      own (f, PRead a s d rp wp buf) (f, let c := firstn COPY (skipn rp (data n)) in PWrite a s d (rp + length c) wp (c ++ skipn (length c) buf))
  | o_read_end f a s d rp wp buf n : node f s = Some n -> (length (data n) <= rp)%nat -> own (f, PRead a s d rp wp buf) (f, PTrunc a s d wp)
  | o_write f a s d rp wp buf n : node f d = Some n ->
      own (f, PWrite a s d rp wp buf) (set_node f d (Fl (attr n) (put (data n) wp buf)), PRead a s d rp (wp + length buf) buf)
  | o_trunc f a s d pos n : node f d = Some n -> own (f, PTrunc a s d pos) (set_node f d (Fl (attr n) (cut (data n) pos)), PChown a s d)
  | o_chown f a s d : own (f, PChown a s d) (by_name f (fun x => fst (sys_chown strip u x (Some (owner a)) (Some (group a)))), PChmod a s d)
  | o_chmod f a s d : own (f, PChmod a s d) (by_name f (fun x => fst (sys_chmod u x (perms a))), PStat3 a s d)
  | o_stat3 f a s d i n : dst_is f = Some i -> node f i = Some n -> own (f, PStat3 a s d) (f, PUtime a s d (fst (atime (attr n))))
  | o_stat3_no f a s d x : dst_is f = None -> own (f, PStat3 a s d) (f, PUtime a s d x)
  | o_utime f a s d x : own (f, PUtime a s d x) (by_name f (fun y => fst (sys_utimes u y (x, 0) (fst (mtime a), 0))), PEnd (Some (s, d))).

(** System calls of Copy and changes by others, in any order *)
Inductive crun (o : others) : fs * pc -> fs * pc -> Prop :=
  | cr_nil x : crun o x x
  | cr_own x y z : crun o x y -> own y z -> crun o x z
  | cr_other x f c f' : crun o x (f, c) -> o f f' -> crun o x (f', c).
End Copy.
