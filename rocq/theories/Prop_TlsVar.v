(** C50: the string variables of the thread-local allocator. *)
From Verif Require Import Base S_Seq S_Tls M_Tls S_TlsVar M_TlsVar P_Tls P_TlsVar.
Open Scope nat_scope.
Local Arguments Nat.pow : simpl never.

(** What can be read of the variables: NULL and size 0, or the size and the characters
    followed by the terminator. *)
Definition readable (t : tls) (vs : nat -> tvar) (T : texts) : Prop := forall x,
  match T x with
  | None => ptr (vs x) = None /\ vpos (vs x) = 0
  | Some tx => vpos (vs x) = length tx /\
      exists p b r, ptr (vs x) = Some p /\ heap t p = Some b /\ skipn 1 b = tx ++ 0%N :: r
  end.

(** Whatever operations a program chooses on any number of variables, for [n] steps: each is
    carried out without undefined behaviour, gives exactly the text specified, and leaves the
    other variables alone; ending the thread frees all but the strings of the variables. *)
Fixpoint behaves (node : nat) (junk : nat -> nat -> N) (avail moves : nat -> bool)
    (n : nat) (t : tls) (vs : nat -> tvar) (T : texts) : Prop :=
  readable t vs T /\
  (exists t', ThreadEnd t = Ok (t', true) /\ forall p, heap t' p <> None <-> exists x, ptr (vs x) = Some p) /\
  match n with
  | 0 => True
  | S m => forall o, asked T o -> moderate T ->
      exists t' vs' x new, vexec node junk avail moves t vs o = Ok (t', vs') /\ becomes T o x new /\
        behaves node junk avail moves m t' vs' (fupd T x new)
  end.

Theorem C50_strings : forall node junk avail moves bits, (forall k, avail k = true) ->
  forall n, behaves node junk avail moves n (ThreadInit no_thread bits) (fun _ => Construct) (fun _ => None).
Proof.
  intros node junk avail moves bits Av n.
  assert (G : forall n t vs T, rel node bits t vs T -> behaves node junk avail moves n t vs T).
  { clear n. induction n as [|n IH]; intros t vs T R; cbn [behaves];
      (split; [intros x; eapply rel_reads; eauto|]); (split; [eapply rel_end; eauto|]); auto.
    intros o V M. destruct (vexec_ok node junk avail moves bits Av t vs T o R V M) as (t' & vs' & x & new & E1 & E2 & E3).
    exists t', vs', x, new. split; [exact E1|]. split; [exact E2|]. apply IH. exact E3. }
  apply G. apply rel_start.
Qed.

(** REFUTED: SetSize(0) on a new variable writes through NULL, in every state of the allocator. *)
Theorem C50_setsize_refuted : forall node junk avail moves t,
  SetSize node junk avail moves t Construct 0 = UB.
Proof. reflexivity. Qed.

(** REFUTED: copy construction of a variable that has a string frees an indeterminate
    pointer; unless that happens to be NULL or a block, the behaviour is undefined. *)
Theorem C50_copy_refuted : forall node junk avail t w p garbage q, main t = Some q ->
  ptr w = Some p -> heap t garbage = None -> CopyConstruct node junk avail t w (Some garbage) = UB.
Proof.
  intros node junk avail t w p garbage q Hq Hp Hg. unfold CopyConstruct, memory. rewrite Hp.
  destruct (heap t p) as [b|]; [|reflexivity]. cbn [bind]. unfold SetData. cbn [ptr]. unfold free.
  rewrite Hq. unfold load. rewrite Hg. reflexivity.
Qed.

Definition ex_prog (l : list vop) : res (tls * (nat -> tvar)) :=
  fold_left (fun r o => let* (t, vs) := r in vexec 16 (fun _ _ => 170%N) (fun _ => true) (fun _ => true) t vs o)
    l (Ok (ThreadInit no_thread 4, fun _ => Construct)).
(** Variable 0 gets a text, a number behind and one in front; variable 1 a copy, cut to two
    characters and extended by one; variable 2 a single missing character. *)
Example C50_example :
  match ex_prog [VAppendStr 0 [97; 98; 99]%N [7%N]; VAppendInt 0 (-255)%Z 16 (repeat 1%N 44);
      VPrependUInt 0 10 2 (repeat 1%N 44); VAssign 1 0; VSetSize 1 2; VAppendChar 1 33%N;
      VAppendMissingChar 2 47%N; VAppendMissingChar 2 47%N] with
  | Ok (t, vs) =>
      get t (ptr (vs 0)) (vpos (vs 0) + 1) = Ok [49; 48; 49; 48; 97; 98; 99; 45; 70; 70; 0]%N /\
      get t (ptr (vs 1)) (vpos (vs 1) + 1) = Ok [49; 48; 33; 0]%N /\
      get t (ptr (vs 2)) (vpos (vs 2) + 1) = Ok [47; 0]%N
  | _ => False
  end.
Proof. vm_compute. repeat split; reflexivity. Qed.

Print Assumptions C50_strings.
Print Assumptions C50_setsize_refuted.
Print Assumptions C50_copy_refuted.
