(** Specification of the Windows directory helpers: the texts they are to deliver. *)
From Verif Require Import Base.
Open Scope N_scope.

(** The text, ending in exactly the separators it has, or in one more if it has none. *)
Definition with_back (t : bytes) : bytes := if last t 0 =? 92 then t else t ++ [92].

(** base\ , or base\ + application directory + \ *)
Definition wstorage (base : bytes) (app : option bytes) : bytes :=
  match app with
  | None => with_back base
  | Some a => with_back (with_back base ++ a)
  end.

(** Plain text: ASCII without terminators. *)
Definition ascii (t : list N) : Prop := Forall (fun c => 0 < c < 128) t.
