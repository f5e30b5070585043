(** Specification of the directory helpers: the texts they are to deliver. *)
From Verif Require Import Base.
Open Scope N_scope.

(** The text, ending in exactly the separators it has, or in one more if it has none. *)
Definition with_slash (t : bytes) : bytes := if last t 0 =? 47 then t else t ++ [47].

(** base/ , or base/ + prefix + application directory + / *)
Definition storage (base prefix : bytes) (app : option bytes) : bytes :=
  match app with
  | None => with_slash base
  | Some a => with_slash (with_slash base ++ prefix ++ a)
  end.

(** The buffer holds [t] as a C string. *)
Definition holds (b t : bytes) : Prop := exists rest, b = t ++ 0 :: rest.

(** [d] is everything up to and including the last separator of [f]. *)
Definition separator (c : N) : Prop := c = 47 \/ c = 92.
Definition directory (f d : bytes) : Prop :=
  exists r, f = d ++ r /\ (forall c, In c r -> ~ separator c) /\ (d = [] \/ separator (last d 0)).
