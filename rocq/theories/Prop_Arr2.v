(** C31: two-dimensional arrays. *)
From Verif Require Import Base S_Seq P_Dll S_Vec M_Vec P_Vec S_Arr2 M_Arr2 P_Arr2.

(** REFUTED: the assignment of a non-empty array to one of a different shape
    is undefined, in every state that a program can reach. *)
Theorem C31_reshaping_assignment_refuted (T : Type) (d : T) (p : list (aop T)) s :
  arun T d p aempty = Some (s, true) -> amrun d p ainit = UB.
Proof. intros E. exact (asim_run d p ainit aempty s true AR_init E). Qed.

(** Without such assignments arrays are values. *)
Theorem C31_arrays_are_values_otherwise (T : Type) (d : T) (p : list (aop T)) s :
  arun T d p aempty = Some (s, false) ->
  exists A, amrun d p ainit = Ok A /\
    forall x g, s x = Some g -> a_dims x A = Some (gw g, gh g) /\
      forall j i, j < gh g -> i < gw g -> a_read x j i A = Ok (cell g j i).
Proof.
  intros E. destruct (asim_run d p ainit aempty s false AR_init E) as (A & EA & H). exists A. split; auto.
  intros x g Sx. split; [|intros j i J I; eapply aread_ok; eauto].
  destruct A as [[dm b] r]. destruct H as (bs & ts & _ & _ & F). specialize (F x). rewrite Sx in F. apply F.
Qed.

Print Assumptions C31_reshaping_assignment_refuted.
Print Assumptions C31_arrays_are_values_otherwise.

(** The witness: a 2 by 2 array assigned to a 3 by 1 array. *)
Definition bad : list (aop nat) := [ANew 1 2 2; ANew 2 3 1; AAssign 2 1].
Example C31_witness : match arun nat 0 bad aempty with Some (s, true) => True | _ => False end /\ amrun 0 bad ainit = UB.
Proof. vm_compute. auto. Qed.
Definition good : list (aop nat) :=
  [ANew 1 2 3; AWrite 1 2 1 77; ACopy 2 1; AWrite 1 0 0 5; ANew 3 2 3; AAssign 3 1; AWrite 1 2 1 0; ANew 4 0 2; AAssign 2 4].
Example C31_good : match arun nat 0 good aempty, amrun 0 good ainit with
  | Some (s, false), Ok A => a_read 3 2 1 A = Ok 77 /\ a_read 3 0 0 A = Ok 5 /\ a_read 1 2 1 A = Ok 0 /\ a_dims 2 A = Some (0, 2)
  | _, _ => False end.
Proof. vm_compute. repeat split; reflexivity. Qed.
