(** C29: the cache. *)
From Verif Require Import Base S_Seq P_Dll S_Vec M_Vec P_Vec S_Cache M_Cache P_Cache.

(** After any program over any number of caches, Find and Exists answer for
    every hash and key exactly what the history of that cache has stored; when
    they say no, Result is left alone. *)
Theorem C29_find_is_history (K V : Type) (eqK : K -> K -> bool) (k0 : K) (v0 : V) (p : list (cop K V)) c :
  (forall a b, eqK a b = true <-> a = b) -> crun p cempty = Some c ->
  exists w, mcrun eqK k0 v0 p winit = Ok w /\
    forall x n hist, c x = Some (n, hist) -> n <> 0 -> forall h k r,
      exists b v, m_find eqK x h k r w = Ok (b, v) /\ m_exists eqK x h k w = Ok b /\
        (b = true -> stored n hist h k v) /\ (b = false -> v = r /\ forall u, ~ stored n hist h k u).
Proof.
  intros HK E. destruct (csim_run eqK HK k0 v0 p winit cempty c (CR_init eqK) E) as (w & Ew & H). exists w. split; auto.
  intros x n hist Hx N h k r. eapply find_ok; eauto.
Qed.

(** Remove answers whether the key was stored. *)
Theorem C29_remove_answer (K V : Type) (eqK : K -> K -> bool) (k0 : K) (v0 : V) (p : list (cop K V)) c x n hist h k :
  (forall a b, eqK a b = true <-> a = b) -> crun p cempty = Some c -> c x = Some (n, hist) -> n <> 0 ->
  exists w b w', mcrun eqK k0 v0 p winit = Ok w /\ m_remove eqK x h k w = Ok (b, w') /\
    (b = true <-> exists v, stored n hist h k v).
Proof.
  intros HK E Hx N. destruct (csim_run eqK HK k0 v0 p winit cempty c (CR_init eqK) E) as (w & Ew & H).
  destruct (remove_sim eqK HK x h k w c n hist H Hx N) as (b & w' & E1 & _ & E2). exists w, b, w'. auto.
Qed.

(** A value is found for a key only if it was inserted under that key. *)
Theorem C29_never_inserted_never_found (K V : Type) (eqK : K -> K -> bool) (k0 : K) (v0 : V) (p : list (cop K V)) c x n hist h k r :
  (forall a b, eqK a b = true <-> a = b) -> crun p cempty = Some c -> c x = Some (n, hist) -> n <> 0 ->
  (forall h' v, ~ In (EInsert h' k v) hist) ->
  exists w, mcrun eqK k0 v0 p winit = Ok w /\ m_find eqK x h k r w = Ok (false, r).
Proof.
  intros HK E Hx N NI. destruct (C29_find_is_history K V eqK k0 v0 p c HK E) as (w & Ew & H). exists w. split; auto.
  destruct (H x n hist Hx N h k r) as (b & v & F & _ & T & Fl). destruct b.
  - destruct (T eq_refl) as (a & h' & o & Q & _). exfalso. apply (NI h' v). rewrite Q. apply in_or_app. right. now left.
  - destruct (Fl eq_refl) as [-> _]. exact F.
Qed.

Print Assumptions C29_find_is_history.
Print Assumptions C29_remove_answer.
Print Assumptions C29_never_inserted_never_found.

(** Slots 1 and 6 collide in a cache of five. *)
Definition prog : list (cop nat nat) :=
  [CNew 1 5; CInsert 1 1 100 7; CInsert 1 3 300 9; CCopy 2 1; CInsert 1 6 600 8; CRemove 1 3 301; CEmpty 2; CInsert 2 3 300 10].
Example C29_prog : match mcrun Nat.eqb 0 0 prog winit with Ok w =>
  m_find Nat.eqb 1 1 100 55 w = Ok (false, 55) /\ m_find Nat.eqb 1 6 600 55 w = Ok (true, 8) /\
  m_find Nat.eqb 1 3 300 55 w = Ok (true, 9) /\ m_find Nat.eqb 2 3 300 55 w = Ok (true, 10) /\ m_exists Nat.eqb 2 1 100 w = Ok false
  | _ => False end.
Proof. vm_compute. repeat split; reflexivity. Qed.
Example C29_prog_legal : match crun prog cempty with
  | Some c => match c 1 with Some (5, hist) => stored 5 hist 3 300 9 | _ => False end
  | None => False end.
Proof.
  vm_compute.
  exists [ERemove 3 301; EInsert 6 600 8], 3, [EInsert 1 100 7]. split; [reflexivity|]. split; [reflexivity|].
  repeat constructor; cbn; lia.
Qed.
(** A cache without slots divides by zero. *)
Example C29_zero_slots : mcrun Nat.eqb 0 0 [CNew 1 0; CInsert 1 1 2 3] winit = UB.
Proof. reflexivity. Qed.
