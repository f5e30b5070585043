(** Dir::Mkdir (POSIX) in several processes at once: utf8/utf8_file_dir.cpp 1770-1794, as in M_Dir,
    but one round of the loop, with at most one system call, at a time.  Definitions only.

    The rest is as in M_Dir; the mode is not modelled. *)
From Verif Require Import Base S_Path S_Tree M_Path M_Dir.
Open Scope N_scope.

Inductive mproc :=
  | MAt (d : bytes) (x : nat)     (* before the test of the loop in 1782, or at 1793 *)
  | MEnd (ok : bool).             (* Mkdir has returned *)

Section Start.
Variable sgn : bool.
Variable cwd : bytes.
Variables g2 g3 gr : bytes -> bytes.

(** 1772-1781 — each process has its own buffer *)
Definition Mkdir_p (name : bytes) (recursive : bool) : res mproc :=
  let* o := absname sgn cwd g2 g3 gr name in
  match o with
  | None => Ok (MEnd false)
  | Some d => Ok (MAt d (if recursive then after_slash d else length d))
  end.
End Start.

(** 1782-1790, one round, or 1793 *)
Definition madvance (t : tree) (pr : mproc) : option (tree * mproc) :=
  match pr with
  | MAt d x =>
      if (x <? length d)%nat
      then Some (if nth x d 0 =? slash then fst (mkdir t (firstn x d)) else t, MAt d (S x))
      else Some (fst (mkdir t d), MEnd (snd (mkdir t d)))
  | MEnd _ => None
  end.

(** Rounds of the processes and changes by others, in any order *)
Inductive mrun (other : tree -> tree -> Prop) : tree * list mproc -> tree * list mproc -> Prop :=
  | mr_nil x : mrun other x x
  | mr_own x t ps i pr t' pr' : mrun other x (t, ps) -> nth_error ps i = Some pr -> madvance t pr = Some (t', pr') ->
      mrun other x (t', upd ps i pr')
  | mr_other x t ps t' : mrun other x (t, ps) -> other t t' -> mrun other x (t', ps).

(** [n] rounds of one process *)
Fixpoint mrounds (n : nat) (t : tree) (pr : mproc) : tree * mproc :=
  match n with
  | O => (t, pr)
  | S m => match madvance t pr with Some (t', pr') => mrounds m t' pr' | None => (t, pr) end
  end.
