(** Specification of long file names.  Nothing here refers to the model. *)
From Verif Require Import Base S_Utf8.
Open Scope N_scope.

(** Paths are lists of code points.  [long p]: the name under which the last component of [p] is
    stored, if [p] exists. *)
Section Long.
Variable long : list N -> option (list N).

Definition stored_as (acc c : list N) : list N := match long (acc ++ 92 :: c) with Some n => n | None => c end.

(** Every component that exists is replaced by the name it is stored under. *)
Fixpoint long_path (acc : list N) (cs : list (list N)) : list N :=
  match cs with [] => acc | c :: r => long_path (acc ++ 92 :: stored_as acc c) r end.

(** On the way no path has more than [most] bytes. *)
Fixpoint stays_within (most : nat) (acc : list N) (cs : list (list N)) : Prop :=
  match cs with
  | [] => True
  | c :: r => (length (text enc8 (acc ++ 92%N :: c)) <= most)%nat /\
              (length (text enc8 (acc ++ 92%N :: stored_as acc c)) <= most)%nat /\ stays_within most (acc ++ 92 :: stored_as acc c) r
  end.
End Long.

(** A component: not empty, proper text without NUL and backslash. *)
Definition part (c : list N) : Prop := c <> [] /\ good_text c /\ ~ In 0 c /\ ~ In 92 c.
