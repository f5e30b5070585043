(** C52: calls through the shared library wrapper. *)
From Verif Require Import Base S_Seq M_SharedLib S_SharedLib P_SharedLib.

(** The system answers the same at all times. *)
Definition steady (e : env) (open : N -> option N) (sym : N -> N -> option N) : Prop :=
  (forall t f, dlopen e t f = open f) /\ (forall t h n, dlsym e t h n = sym h n).

(** Call, CallOnce and CallOnceVoid, in any order over any number of modules and functions:
    each answers true exactly when the library opens and exports the function; each success
    is exactly one call, with the arguments given, and Call and CallOnce store its value. *)
Theorem C52_call_calls : forall e open sym file home name p, steady e open sym -> Forall not_void p ->
  exists w, run e p (start file home name) = (w, map (wanted open sym (result e) file home name) p) /\
    called (trace w) = calls open sym file home name p.
Proof.
  intros e open sym file home name p [H1 H2] F.
  destruct (run_ok e open sym H1 H2 file home name p (start file home name) (start_good open sym file home name) F) as (w & E & _ & C).
  exists w. auto.
Qed.

(** Whatever the system answers at each moment: through ModuleUtil and FunctionUtil each
    library is opened at most once and each function looked up at most once. *)
Theorem C52_searched_once : forall e file home name p w l,
  (forall i j, file i = file j -> i = j) -> (forall i j, name i = name j -> i = j) ->
  Forall wrapped p -> run e p (start file home name) = (w, l) ->
  forall i, opens (file i) (trace w) <= 1 /\ syms (name i) (trace w) <= 1.
Proof.
  intros e file home name p w l I1 I2 F E i.
  destruct (once_run e file home name I1 I2 p _ _ _ (once_start file home name I1) F E) as [O1 O2]. split.
  - destruct (O1 i) as [[_ X]|[_ X]]; lia.
  - destruct (O2 i) as [_ [(_ & _ & X)|[_ X]]]; lia.
Qed.

(** REFUTED for CallVoid: after every history, on every system, it returns false, calls
    nothing and asks nothing. *)
Theorem C52_void_refuted : forall e file home name p w l f args,
  (forall i j, file i = file j -> i = j) -> (forall i j, name i = name j -> i = j) ->
  Forall wrapped p -> run e p (start file home name) = (w, l) ->
  CallVoid e w f args = (w, false).
Proof.
  intros e file home name p w l f args I1 I2 F E.
  apply (void_never e file home name I1 I2). apply (once_run e file home name I1 I2 p _ _ _ (once_start file home name I1) F E).
Qed.

(** Library 5 opens as handle 50 and exports function 7 at address 700, not function 8. *)
Definition env1 : env := Env (fun _ f => if N.eqb f 5 then Some 50%N else None)
  (fun _ h n => if (N.eqb h 50 && N.eqb n 7)%bool then Some 700%N else None) (fun p a => (p + N.of_nat (length a))%N).
Definition file1 (m : nat) : N := N.of_nat m + 5.
Definition home1 (f : nat) : nat := match f with 2 => 1 | _ => 0 end.
Definition name1 (f : nat) : N := N.of_nat f + 7.
Example C52_example :
  run env1 [OCall 0 [1%N]; OVoid 0 [2%N]; OCall 0 []; OCall 1 []; OCall 2 []; OCall 2 []; OOnceVoid 5 7 [3%N]; OOnce 6 7 []]
    (start file1 home1 name1) =
  (fst (run env1 [OCall 0 [1%N]; OVoid 0 [2%N]; OCall 0 []; OCall 1 []; OCall 2 []; OCall 2 []; OOnceVoid 5 7 [3%N]; OOnce 6 7 []]
    (start file1 home1 name1)),
   [ATrue (Some 701%N); AFalse; ATrue (Some 700%N); AFalse; AFalse; AFalse; ATrue None; AFalse]) /\
  trace (fst (run env1 [OCall 0 [1%N]; OVoid 0 [2%N]; OCall 0 []; OCall 1 []; OCall 2 []; OCall 2 []; OOnceVoid 5 7 [3%N]; OOnce 6 7 []]
    (start file1 home1 name1))) =
  [EOpen 5; ESym 50 7; ECall 700 [1%N]; ECall 700 []; ESym 50 8; EOpen 6; EOpen 5; ESym 50 7; ECall 700 [3%N]; EOpen 6]%N.
Proof. split; reflexivity. Qed.

Print Assumptions C52_call_calls.
Print Assumptions C52_searched_once.
Print Assumptions C52_void_refuted.
