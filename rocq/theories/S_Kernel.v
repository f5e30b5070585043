(** When the two platforms are claimed to agree.  [w] is the state a Windows program is in; the
    predicate refers to it only for what such a program could ask. *)
From Verif Require Import Base M_Kernel.
Open Scope N_scope.

Section Usual.
Variable kindof : nat -> kind.
Variable n : nat.

(** [used k s]: an object of that kind was created by that name before. *)
Definition usual (w : world) (used : kind -> N -> bool) (o : op) : Prop :=
  match o with
  | Create i name v _ _ =>
      (i < n)%nat /\ (kindof i = KSem -> (0 < v < 2147483648)%Z) /\
      match name with
      | None => True
      | Some s =>
          (* the name is not in use for the other kind, *)
          store w (Named (other_kind (kindof i)) s) = None /\
          (* and new, or still that of another object *)
          (used (kindof i) s = true -> exists j, (j < n)%nat /\ j <> i /\ refs w j = Some (Named (kindof i) s))
      end
  | Unlock i => forall k c m, get w i = Some (k, OSem c m) -> c < m      (* after a Lock *)
  | Reset i => forall k m s, get w i = Some (k, OEvent m s) -> m = true   (* a manual event *)
  | _ => True
  end.
Definition use (used : kind -> N -> bool) (o : op) : kind -> N -> bool :=
  match o with
  | Create i (Some s) _ _ _ => fun k t => (kind_eqb k (kindof i) && (t =? s)) || used k t
  | _ => used
  end.
Fixpoint usual_run (w : world) (used : kind -> N -> bool) (l : list op) : Prop :=
  match l with
  | [] => True
  | o :: r => usual w used o /\ usual_run (fst (w_step kindof n w o)) (use used o) r
  end.
End Usual.
