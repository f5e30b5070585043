(** Shared vocabulary of the models: outcomes, byte buffers, machine words.
    Nothing in this file describes code in /repo by itself; the model files
    [M_*.v] cite the files and lines they translate. *)
From Coq Require Export List NArith ZArith Lia Bool Arith.
From Coq Require Export ZifyBool ZifyNat ZifyN.
Export ListNotations.

(** Time without the on-disk cache of arithmetic certificates, as in a fresh checkout. *)
#[export] Unset Lia Cache.
#[export] Unset Nia Cache.
#[export] Unset Nra Cache.

(** Plain [lia] does not look into division and remainder (it is much slower otherwise). *)
Ltac Zify.zify_convert_to_euclidean_division_equations_flag ::= constr:(false).

(** [lia] for goals with division and remainder by constants. *)
Ltac dlia := zify; Z.to_euclidean_division_equations; lia.

(** [lia] treating quotients and remainders as unknown natural numbers. *)
Ltac alia :=
  repeat match goal with
  | |- context [N.modulo ?a ?b] => let z := fresh "z" in set (z := N.modulo a b) in *; clearbody z
  | _ : context [N.modulo ?a ?b] |- _ => let z := fresh "z" in set (z := N.modulo a b) in *; clearbody z
  | |- context [N.div ?a ?b] => let z := fresh "z" in set (z := N.div a b) in *; clearbody z
  | _ : context [N.div ?a ?b] |- _ => let z := fresh "z" in set (z := N.div a b) in *; clearbody z
  end; lia.

(** Outcome of running a piece of C++: a value, undefined behaviour, or the
    fuel of a loop ran out (excluded by the theorems, or shown to happen for
    every amount of fuel when the loop does not terminate). *)
Inductive res (A : Type) : Type :=
| Ok (a : A)
| UB
| Fuel.
Arguments Ok {A} a.
Arguments UB {A}.
Arguments Fuel {A}.

Definition bind {A B} (m : res A) (k : A -> res B) : res B :=
  match m with Ok a => k a | UB => UB | Fuel => Fuel end.

Declare Scope res_scope.
Delimit Scope res_scope with res.
Notation "'let*' x ':=' e 'in' k" := (bind e (fun x => k))
  (at level 200, x pattern, e at level 100, k at level 200, right associativity) : res_scope.
Open Scope res_scope.

(** Machine words. *)
Definition W8  : N := (2^8)%N.
Definition W16 : N := (2^16)%N.
Definition W32 : N := (2^32)%N.
Definition W64 : N := (2^64)%N.
Definition w32 (n : N) : N := N.modulo n W32.
Definition w64 (n : N) : N := N.modulo n W64.

(** A buffer of bytes; its length is its capacity.  Reading or writing outside
    it is undefined behaviour. *)
Definition bytes := list N.

Fixpoint upd {A} (l : list A) (i : nat) (v : A) : list A :=
  match l, i with
  | [], _ => []
  | _ :: t, O => v :: t
  | h :: t, S j => h :: upd t j v
  end.

Definition rd {A} (b : list A) (i : nat) : res A :=
  match nth_error b i with Some v => Ok v | None => UB end.

Definition wr {A} (b : list A) (i : nat) (v : A) : res (list A) :=
  if (i <? length b)%nat then Ok (upd b i v) else UB.

(** [blit b i s]: store the list [s] at [b[i..]]; undefined if it does not fit. *)
Definition blit {A} (b : list A) (i : nat) (s : list A) : res (list A) :=
  if (i + length s <=? length b)%nat
  then Ok (firstn i b ++ s ++ skipn (i + length s) b) else UB.

(** [slice b i n]: the [n] bytes at [b[i..]]; undefined if out of range. *)
Definition slice {A} (b : list A) (i n : nat) : res (list A) :=
  if (i + n <=? length b)%nat then Ok (firstn n (skipn i b)) else UB.

(** memmove inside one buffer (overlap allowed). *)
Definition memmove {A} (b : list A) (dst src n : nat) : res (list A) :=
  let* s := slice b src n in blit b dst s.

(** A C string: the bytes before the first NUL (a missing terminator is
    undefined behaviour, since strlen would run off the buffer). *)
Fixpoint cstr (b : bytes) : res bytes :=
  match b with
  | [] => UB
  | c :: t => if (c =? 0)%N then Ok [] else let* r := cstr t in Ok (c :: r)
  end.

Definition isByte (c : N) : Prop := (c < 256)%N.
Definition byteList (l : bytes) : Prop := Forall isByte l.

(** ** Elementary lemmas *)

Lemma upd_length {A} (l : list A) i v : length (upd l i v) = length l.
Proof. revert i; induction l as [|h t IH]; intros [|i]; cbn; auto. Qed.

Lemma upd_nth_same {A} (l : list A) i v : (i < length l)%nat -> nth_error (upd l i v) i = Some v.
Proof. revert i; induction l as [|h t IH]; intros [|i] H; cbn in *; try lia; auto. apply IH; lia. Qed.

Lemma upd_nth_other {A} (l : list A) i j v : i <> j -> nth_error (upd l i v) j = nth_error l j.
Proof.
  revert i j; induction l as [|h t IH]; intros [|i] [|j] H; cbn; try lia; auto.
Qed.

Lemma upd_nth {A} (l : list A) i j v :
  nth_error (upd l i v) j = if (Nat.eqb i j && (i <? length l))%nat then Some v else nth_error l j.
Proof.
  destruct (Nat.eqb_spec i j) as [->|Hne].
  - destruct (Nat.ltb_spec j (length l)); cbn [andb].
    + now apply upd_nth_same.
    + rewrite (proj2 (nth_error_None (upd l j v) j)); [|rewrite upd_length; lia].
      symmetry; apply nth_error_None; lia.
  - cbn [andb]. now apply upd_nth_other.
Qed.

Lemma upd_split {A} (l : list A) i v :
  (i < length l)%nat -> upd l i v = firstn i l ++ v :: skipn (S i) l.
Proof.
  revert i; induction l as [|h t IH]; intros [|i] H; cbn in *; try lia; auto.
  f_equal. apply IH; lia.
Qed.

Lemma upd_app_r {A} (a b : list A) i v :
  (length a <= i)%nat -> upd (a ++ b) i v = a ++ upd b (i - length a) v.
Proof.
  revert i; induction a as [|h t IH]; intros i H; cbn [length app] in *.
  - now rewrite Nat.sub_0_r.
  - destruct i as [|i]; [lia|]. cbn. f_equal. apply IH; lia.
Qed.

Lemma upd_app_l {A} (a b : list A) i v :
  (i < length a)%nat -> upd (a ++ b) i v = upd a i v ++ b.
Proof.
  revert i; induction a as [|h t IH]; intros i H; cbn [length app] in *; [lia|].
  destruct i as [|i]; cbn; auto. f_equal. apply IH; lia.
Qed.

Lemma wr_Ok {A} (b : list A) i v b' : wr b i v = Ok b' -> (i < length b)%nat /\ b' = upd b i v.
Proof. unfold wr; destruct (Nat.ltb_spec i (length b)); intros E; inversion E; auto. Qed.

Lemma wr_in {A} (b : list A) i v : (i < length b)%nat -> wr b i v = Ok (upd b i v).
Proof. unfold wr; intros H; now rewrite (proj2 (Nat.ltb_lt _ _) H). Qed.

Lemma wr_split {A} (b : list A) i v :
  (i < length b)%nat -> wr b i v = Ok (firstn i b ++ v :: skipn (S i) b).
Proof. intros H. rewrite wr_in by exact H. now rewrite upd_split. Qed.

Lemma rd_in {A} (b : list A) i d : (i < length b)%nat -> rd b i = Ok (nth i b d).
Proof. intros H. unfold rd. now rewrite (nth_error_nth' b d H). Qed.

Lemma blit_in {A} (b : list A) i s :
  (i + length s <= length b)%nat -> blit b i s = Ok (firstn i b ++ s ++ skipn (i + length s) b).
Proof. unfold blit; intros H; now rewrite (proj2 (Nat.leb_le _ _) H). Qed.

Lemma slice_in {A} (b : list A) i n :
  (i + n <= length b)%nat -> slice b i n = Ok (firstn n (skipn i b)).
Proof. unfold slice; intros H; now rewrite (proj2 (Nat.leb_le _ _) H). Qed.

Lemma blit_length {A} (b : list A) i s b' : blit b i s = Ok b' -> length b' = length b.
Proof.
  unfold blit. destruct (Nat.leb_spec (i + length s) (length b)) as [H|]; intros E; inversion E.
  rewrite !app_length, firstn_length, skipn_length. lia.
Qed.

Lemma wr_length {A} (b : list A) i v b' : wr b i v = Ok b' -> length b' = length b.
Proof. intros E. apply wr_Ok in E as [_ ->]. apply upd_length. Qed.

Lemma bind_Ok {A B} (m : res A) (k : A -> res B) b :
  bind m k = Ok b -> exists a, m = Ok a /\ k a = Ok b.
Proof. destruct m; cbn; intros E; try discriminate. eauto. Qed.

Lemma skipn_skipn {A} (l : list A) a b : skipn a (skipn b l) = skipn (a + b) l.
Proof.
  revert l; induction b as [|b IH]; intros l.
  - now rewrite Nat.add_0_r.
  - rewrite <- plus_n_Sm. destruct l as [|h t]; [now rewrite !skipn_nil|]. cbn. apply IH.
Qed.

Lemma app_len_inj {A} (a b c d : list A) : length a = length c -> a ++ b = c ++ d -> a = c /\ b = d.
Proof.
  revert c; induction a as [|x a IH]; intros [|y c] L E; cbn in *; try discriminate; auto.
  inversion E; subst. destruct (IH c) as [-> ->]; auto.
Qed.
