(** C30: fixed-size vectors are values. *)
From Verif Require Import Base S_Seq P_Dll S_Vec M_Vec P_Vec.

(** Any program creating, copying, assigning (also to itself), writing and
    destroying vectors runs without undefined behaviour, and afterwards every
    vector has the size and the elements that the same program gives on
    mathematical sequences. *)
Theorem C30_vectors_are_values (T : Type) (d : T) (p : list (vop T)) s :
  vrun T d p (vempty T) = Some s ->
  exists w, mrun d p winit = Ok w /\
    forall x l, s x = Some l ->
      m_size x w = Ok (length l) /\ (forall i, i < length l -> m_read x i w = Ok (nth i l d)).
Proof.
  intros E. destruct (sim_run d p winit (vempty T) s init_R E) as (w & Ew & H). exists w. split; auto.
  intros x l Hx. split; [eapply size_ok; eauto|]. intros i Hi. rewrite (read_ok x i w s l H Hx Hi). now apply rd_in.
Qed.

(** operator== decides element-wise equality. *)
Theorem C30_equality (T : Type) (d : T) (eqT : T -> T -> bool) (p : list (vop T)) s x y lx ly :
  vrun T d p (vempty T) = Some s -> s x = Some lx -> s y = Some ly ->
  exists w b, mrun d p winit = Ok w /\ m_eq eqT x y w = Ok b /\
    (b = true <-> Forall2 (fun a c => eqT a c = true) lx ly).
Proof.
  intros E Hx Hy. destruct (sim_run d p winit (vempty T) s init_R E) as (w & Ew & H).
  destruct (eq_ok eqT x y w s lx ly H Hx Hy) as (b & Eb & B). exists w, b. auto.
Qed.

(** No array is leaked: when no vector is left alive, no block is. *)
Theorem C30_no_leaks (T : Type) (d : T) (p : list (vop T)) s :
  vrun T d p (vempty T) = Some s -> (forall x, s x = None) ->
  exists w, mrun d p winit = Ok w /\ forall b, blk (snd w) b = None.
Proof.
  intros E Z. destruct (sim_run d p winit (vempty T) s init_R E) as (w & Ew & H). exists w. split; auto.
  intros b. destruct (blk (snd w) b) as [l|] eqn:B; auto. destruct (r_live _ _ H b l B) as (_ & _ & x & n & Hx).
  pose proof (r_obj _ _ H x) as Q. rewrite Hx, Z in Q. contradiction.
Qed.

Print Assumptions C30_vectors_are_values.
Print Assumptions C30_equality.
Print Assumptions C30_no_leaks.

Definition prog : list (vop nat) :=
  [VNew 1 3; VWrite 1 0 10; VWrite 1 2 12; VCopy 2 1; VWrite 1 0 99; VNew 3 0; VAssign 2 2; VNew 4 2; VAssign 4 1; VAssign 2 3].
Example C30_prog : match vrun nat 0 prog (vempty nat) with
  | Some s => s 1 = Some [99; 0; 12] /\ s 2 = Some [] /\ s 4 = Some [99; 0; 12]
  | None => False end.
Proof. vm_compute. repeat split; reflexivity. Qed.
Example C30_prog_model : match mrun 0 prog winit with Ok w => m_read 4 2 w = Ok 12 /\ m_size 2 w = Ok 0 /\
  m_eq Nat.eqb 1 4 w = Ok true /\ m_eq Nat.eqb 1 3 w = Ok false
  | _ => False end.
Proof. vm_compute. repeat split; reflexivity. Qed.
(** Use after the end of life is undefined. *)
Example C30_dangling : mrun 0 [VNew 1 3; VDelete 1; VWrite 1 0 5] winit = UB.
Proof. reflexivity. Qed.
