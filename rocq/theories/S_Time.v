(** Times and timeouts, as callers see them.  Nothing here refers to the model. *)
From Verif Require Import Base.
Open Scope N_scope.

(** ** The calendar *)
Definition leap (year : N) : bool := (year mod 4 =? 0) && (negb (year mod 100 =? 0) || (year mod 400 =? 0)).
Definition year_days (year : N) : N := if leap year then 366 else 365.
(** Days from the start of year [y] to the start of year [y + n]. *)
Fixpoint days_from (y : N) (n : nat) : N := match n with O => 0 | S m => year_days y + days_from (y + 1) m end.
(** Microseconds from the start of 1601 to the start of 1970. *)
Definition usec_1601_1970 : N := days_from 1601 (1970 - 1601) * (24 * 60 * 60 * 1000000).

(** ** Deadlines *)
(** Nanoseconds since 1970 of a time given in seconds and nanoseconds. *)
Definition instant (sec nsec : Z) : Z := (sec * 1000000000 + nsec)%Z.
Definition normal_nsec (nsec : Z) : Prop := (0 <= nsec < 1000000000)%Z.

(** ** Waiting for an operating system object *)
(** Wait = INFINITE waits for ever. *)
Definition INFINITE : N := 4294967295.
(** Whether the object was obtained, and how many microseconds the caller was blocked. *)
Record answer := Answer { granted : bool; blocked : N }.
(** A wait with a timeout of [w] milliseconds blocks at most that long, and it fails only when that
    time has passed.  A wait without a timeout does not fail. *)
Definition obeys (w : N) (a : answer) : Prop :=
  if w =? INFINITE then granted a = true
  else blocked a <= w * 1000 /\ (granted a = false -> blocked a = w * 1000).
(** The object is there: the wait succeeds without blocking. *)
Definition free (a : answer) : Prop := granted a = true /\ blocked a = 0.
