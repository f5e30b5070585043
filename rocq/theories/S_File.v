(** Specification of a file with a current position.  Nothing here refers to the model. *)
From Verif Require Import Base.
Open Scope N_scope.

(** Contents and current position. *)
Record afile := AFile { content : bytes; apos : N }.
Definition size (a : afile) : N := N.of_nat (length (content a)).

Inductive whence := FromStart | FromEnd | Forward | Backward.
Inductive fop :=
| FSeek (w : whence) (k : N)
| FRead (n : N)
| FWrite (d : bytes).
Inductive fans :=
| ADone (b : bool)
| ABytes (b : bool) (d : bytes)   (* success, bytes read *)
| AWrote (b : bool) (n : N).      (* success, count reported *)

(** Seeking goes to the position asked for, or to the nearest end of the file. *)
Definition target (a : afile) (w : whence) (k : N) : N :=
  match w with
  | FromStart => N.min k (size a)
  | FromEnd => size a - k
  | Forward => N.min (apos a + k) (size a)
  | Backward => apos a - k
  end.

(** [d] stored over the contents at position [p] (which is inside or at the end). *)
Definition overwrite (c : bytes) (p : N) (d : bytes) : bytes :=
  firstn (N.to_nat p) c ++ d ++ skipn (N.to_nat p + length d) c.

(** Arguments are 64-bit, and the file stays below 2^62 bytes. *)
Definition fvalid (a : afile) (o : fop) : Prop :=
  match o with
  | FSeek _ k => k < W64
  | FRead n => n < W64
  | FWrite d => size a + N.of_nat (length d) < 2 ^ 62
  end.

(** A successful operation: a read may give fewer bytes than asked for, but gives some
    if there are any. *)
Inductive fstep (a : afile) : fop -> fans -> afile -> Prop :=
| f_seek w k : fstep a (FSeek w k) (ADone true) (AFile (content a) (target a w k))
| f_read n d : N.of_nat (length d) <= n -> d = firstn (length d) (skipn (N.to_nat (apos a)) (content a)) ->
    (d = [] -> n = 0 \/ size a <= apos a) ->
    fstep a (FRead n) (ABytes true d) (AFile (content a) (apos a + N.of_nat (length d)))
| f_read_fails n : fstep a (FRead n) (ABytes false []) a
| f_write d : fstep a (FWrite d) (AWrote true (N.of_nat (length d)))
    (AFile (overwrite (content a) (apos a) d) (apos a + N.of_nat (length d))).
