(** Recursive Dir::Rmdir (POSIX) among other processes: utf8/utf8_file_dir.cpp 1796-1845, as in
    M_Dir, but one system call at a time.  Definitions only.

    A call of Rmdir is the tree of its system calls and of what it does after each answer; between
    two of them other processes may change the files.  A directory is read as it was when it was
    opened.  The rest is as in M_Dir. *)
From Verif Require Import Base S_Path S_Tree M_Path M_Dir.
Open Scope N_scope.

Inductive prog :=
  | CDone (ok : bool)                                          (* Rmdir returns *)
  | CUndef | CFuel
  | CLstat (s : bytes) (k : option kind -> prog)
  | COpendir (s : bytes) (k : option (list bytes) -> prog)
  | CUnlink (s : bytes) (k : bool -> prog)
  | CRmdir (s : bytes) (k : bool -> prog).

Section Race.
Variable sgn : bool.
Variable cwd : bytes.
Variables g2 g3 gr : bytes -> bytes.

(** 1821-1839; [deeper]: the recursive call, with what comes after it *)
Fixpoint entries_p (deeper : bytes -> prog -> prog) (d : bytes) (names : list bytes) (k : prog) : prog :=
  match names with
  | [] => k
  | n :: r =>
      if (N.to_nat 8192 - length d - 1 <? length n + 1)%nat then k
      else if list_eq_dec N.eq_dec n [46] then entries_p deeper d r k
      else if list_eq_dec N.eq_dec n [46; 46] then entries_p deeper d r k
      else
        let d1 := d ++ slash :: n in
        CLstat d1 (fun o => match o with
          | None => entries_p deeper d r k
          | Some KDir => deeper d1 (CRmdir d1 (fun _ => entries_p deeper d r k))
          | Some _ => CUnlink d1 (fun _ => entries_p deeper d r k)
          end)
  end.

(** 1812-1845 *)
Fixpoint recurse_p (fuel : nat) (d : bytes) (k : prog) : prog :=
  match fuel with
  | O => CFuel
  | S g =>
      if (N.to_nat 8190 <=? length d)%nat then k
      else match absname sgn cwd g2 g3 gr d with
        | Ok (Some s) => COpendir s (fun o => match o with None => k | Some names => entries_p (recurse_p g) d names k end)
        | Ok None => k
        | UB => CUndef
        | Fuel => CFuel
        end
  end.

(** 1796-1810 *)
Definition Rmdir_p (fuel : nat) (name : bytes) (recursive : bool) : prog :=
  match absname sgn cwd g2 g3 gr name with
  | Ok (Some d) =>
      let last := CRmdir d (fun b => CDone b) in
      if recursive then
        CLstat d (fun o => match o with None => last | Some (KLink _) => last | Some _ => recurse_p fuel d last end)
      else last
  | Ok None => CDone false
  | UB => CUndef
  | Fuel => CFuel
  end.
End Race.

(** One system call *)
Inductive own : tree * prog -> tree * prog -> Prop :=
  | o_lstat t s k : own (t, CLstat s k) (t, k (lstat t s))
  | o_opendir t s k : own (t, COpendir s k) (t, k (opendir t s))
  | o_unlink t s k : own (t, CUnlink s k) (fst (unlink t s), k (snd (unlink t s)))
  | o_rmdir t s k : own (t, CRmdir s k) (fst (rmdir t s), k (snd (rmdir t s))).

(** System calls of Rmdir and changes by others, in any order *)
Inductive rrun (other : tree -> tree -> Prop) : tree * prog -> tree * prog -> Prop :=
  | rr_nil x : rrun other x x
  | rr_own x y z : rrun other x y -> own y z -> rrun other x z
  | rr_other x t c t' : rrun other x (t, c) -> other t t' -> rrun other x (t', c).

(** Nobody else does anything. *)
Fixpoint alone (t : tree) (c : prog) : res (tree * bool) :=
  match c with
  | CDone b => Ok (t, b)
  | CUndef => UB
  | CFuel => Fuel
  | CLstat s k => alone t (k (lstat t s))
  | COpendir s k => alone t (k (opendir t s))
  | CUnlink s k => alone (fst (unlink t s)) (k (snd (unlink t s)))
  | CRmdir s k => alone (fst (rmdir t s)) (k (snd (rmdir t s)))
  end.
