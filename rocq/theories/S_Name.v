(** Specification of names of shared objects. *)
From Verif Require Import Base S_Numeral.
Open Scope N_scope.

(** '/' and '\\' become '_'. *)
Definition plain (c : N) : N := if (c =? 92) || (c =? 47) then 95 else c.

(** A byte string that may be passed as a C string. *)
Definition text (t : bytes) : Prop := Forall (fun c => 0 < c < 256) t.

(** A prefix: a slash, then neither slashes, backslashes nor dashes. *)
Definition prefix_ok (p : bytes) : Prop := exists r, p = 47 :: r /\ Forall (fun c => 0 < c < 256 /\ c <> 45 /\ c <> 47 /\ c <> 92) r.

(** [d] is the number [n] in decimal. *)
Definition decimal (n : N) (d : bytes) : Prop := exists ds, is_numeral 10 n ds /\ d = map (fun x => 48 + x) ds.

(** The full text of a name. *)
Definition full_text (prefix a s name : bytes) : bytes := prefix ++ 45 :: a ++ 45 :: s ++ 45 :: name.

(** A text longer than the [m] places for it is wrapped around: place [i] gets every [m]-th byte. *)
Definition picked (m i : nat) (t : bytes) : bytes := map snd (filter (fun kc => (fst kc mod m =? i)%nat) (combine (seq 0 (length t)) t)).
Definition mixed (l : bytes) : N := fold_left (fun o c => (o * 37 + c) mod 256) l 0.
(** 0 to 9, A to Z, a to z, _ and - *)
Definition alphabet : bytes :=
  [48;49;50;51;52;53;54;55;56;57;65;66;67;68;69;70;71;72;73;74;75;76;77;78;79;80;81;82;83;84;85;86;87;88;89;90;
   97;98;99;100;101;102;103;104;105;106;107;108;109;110;111;112;113;114;115;116;117;118;119;120;121;122;95;45].
(** Places that got several bytes have a letter of the alphabet chosen by them, others their byte. *)
Definition long_name (m : nat) (t : bytes) : bytes :=
  map (fun i => if (i + m <? length t)%nat then nth (N.to_nat (mixed (picked m i t) mod 64)) alphabet 0 else plain (nth i t 0)) (seq 0 m).
