(** Named objects on POSIX when processes end at any time: sync/sync_util.cpp, InitUnixNamedMem
    213-298, UnixNamedMemReady 303-306, UnmapUnixNamedMem 308-325, with the failures of mmap at
    224-225 and 257-258 that M_Named leaves out.  Definitions only.

    A process that ends does nothing more.  What it did to the shared memory stays: the mutex there
    is not a robust one (229-230), and the system does not unlock it.  A new process is one that
    has been idle so far. *)
From Verif Require Import Base S_Named M_Named.
Open Scope N_scope.

(** The object and the processes; those that have ended. *)
Definition mortal : Type := named * list nat.

Section Mortal.
(** whether mmap may fail; whether a process may end inside of a call *)
Variables nomap abrupt : bool.

Inductive dstep : mortal -> option nm_event -> mortal -> Prop :=
  | d_step s dead e s' : nstep s e s' ->
      (forall i, In i dead -> nth_error (procs s') i = nth_error (procs s) i /\ e <> Some (NUndefined i)) -> dstep (s, dead) e (s', dead)
  | d_end s dead i p : nth_error (procs s) i = Some p -> (p = NIdle \/ p = NOpen \/ abrupt = true) -> dstep (s, dead) None (s, i :: dead)
  (* 224-225: Create returns false; the object stays as it is *)
  | d_nomap_new s dead i : nth_error (procs s) i = Some NNew -> ~ In i dead -> nomap = true ->
      dstep (s, dead) None (Named (made s) (status s) (nmtx s) (ref s) (contents s) (nput s i NIdle), dead)
  (* 257-258 *)
  | d_nomap s dead i : nth_error (procs s) i = Some NSpin -> ~ In i dead -> nomap = true ->
      dstep (s, dead) None (Named (made s) (status s) (nmtx s) (ref s) (contents s) (nput s i NIdle), dead).

Inductive drun : mortal -> list nm_event -> mortal -> Prop :=
  | drun_nil s : drun s [] s
  | drun_step s tr s1 e s2 : drun s tr s1 -> dstep s1 e s2 -> drun s (tr ++ match e with Some x => [x] | None => [] end) s2.
End Mortal.
