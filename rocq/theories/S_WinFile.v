(** Specification of files, directories, links, times and permissions as a Windows program sees
    them.  Nothing here refers to the model. *)
From Verif Require Import Base S_File.
Open Scope N_scope.

(** ** Files *)

(** A successful transfer gives or takes at least one byte if there is one; the count says how
    many; after a failure nothing has changed. *)
Inductive wstep (a : afile) : fop -> fans -> afile -> Prop :=
| w_seek w k : wstep a (FSeek w k) (ADone true) (AFile (content a) (target a w k))
| w_read n d : N.of_nat (length d) <= n -> d = firstn (length d) (skipn (N.to_nat (apos a)) (content a)) ->
    (d = [] -> n = 0 \/ size a <= apos a) ->
    wstep a (FRead n) (ABytes true d) (AFile (content a) (apos a + N.of_nat (length d)))
| w_read_fails n : wstep a (FRead n) (ABytes false []) a
| w_write d m : (m <= length d)%nat -> (m = O -> d = []) ->
    wstep a (FWrite d) (AWrote true (N.of_nat m)) (AFile (overwrite (content a) (apos a) (firstn m d)) (apos a + N.of_nat m))
| w_write_fails d : wstep a (FWrite d) (AWrote false 0) a.

(** The amounts Windows can transfer at once: less than 2^32 bytes asked for or left. *)
Definition DWORD : N := 2 ^ 32.
Definition moderate (a : afile) (o : fop) : Prop :=
  match o with
  | FSeek _ _ => True
  | FRead n => n < DWORD \/ size a - apos a < DWORD
  | FWrite d => N.of_nat (length d) < DWORD
  end.

(** ** Times *)

(** Windows counts units of 100 ns from 1601, Unix from 1970; seconds before 1970 are negative. *)
Definition EPOCH : N := (369 * 365 + 89) * 86400 * 10000000.
Definition unix_seconds (ft : N) : Z := ((Z.of_N ft - Z.of_N EPOCH) / 10000000)%Z.

(** ** Permissions *)

(** The write permissions of user, group and others. *)
Definition may_write (mode : N) : bool := N.testbit mode 7 || N.testbit mode 4 || N.testbit mode 1.
Definition may_read (mode : N) : bool := N.testbit mode 8 || N.testbit mode 5 || N.testbit mode 2.
(** Bits of file attributes. *)
Definition READONLY : N := 0.
Definition DIRECTORY : N := 4.
Definition NORMAL : N := 7.
