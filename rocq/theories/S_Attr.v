(** Specification of file attributes on POSIX.  Nothing here refers to the model. *)
From Verif Require Import Base.
Open Scope N_scope.

(** A time: seconds and nanoseconds since 1970. *)
Definition time := (N * N)%type.
(** What stat tells about a regular file; [perms]: the twelve permission bits. *)
Record attrs := Attrs { owner : N; group : N; perms : N; atime : time; mtime : time }.
Definition sane (a : attrs) : Prop := perms a < 4096 /\ snd (atime a) < 1000000000 /\ snd (mtime a) < 1000000000.

(** Bits of [perms]. *)
Definition set_uid (p : N) : bool := N.testbit p 11.
Definition set_gid (p : N) : bool := N.testbit p 10.
(** The nine bits for reading, writing and execution. *)
Definition rwx (p : N) : N := p mod 512.

(** The time [us] microseconds after 1970. *)
Definition at_us (us : N) (t : time) : Prop := fst t * 1000000 + snd t / 1000 = us /\ snd t mod 1000 = 0 /\ snd t < 1000000000.

(** Who runs the program. *)
Record user := User { euid : N; member : N -> bool }.
(** The two databases: users with their primary group, and groups. *)
Record accounts := Accounts { users : list N -> option (N * N); groups : list N -> option N }.
