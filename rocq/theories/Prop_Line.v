(** C56, C74: reading lines and whole files. *)
From Verif Require Import Base S_File M_File P_File S_Line M_Line P_Line.
Open Scope N_scope.

(** ** C56 *)

(** read(2) gives as much as asked for, as far as the file goes. *)
Definition full (hint : nat) (er : nat -> ev) : Prop := forall k, exists j, er k = Part j /\ (hint <= j)%nat.

(** With an allocator given, or a size hint of one: successive calls deliver the lines from the
    current position on, and then empty texts, for every contents, position and hint. *)
Theorem C56_lines : forall er junk alt hint ww f d c p n,
  (0 < hint)%nat -> N.of_nat hint < W64 -> full hint er -> alt = true \/ hint = 1%nat -> sync true ww f d (AFile c p) ->
  exists fuel, calls er junk alt hint fuel n f d = Ok (map Some (some_lines n (skipn (N.to_nat p) c))).
Proof.
  intros er junk alt hint ww f d c p n H1 H2 H3 H4 HS. exists (length c + 2)%nat. eapply calls_ok; try eassumption. lia.
Qed.

(** Without one: a call delivers the line if it and what ends it are within the first [hint]
    bytes, or fewer than [hint] bytes are left; and the position is behind the line. *)
Theorem C56_short_line : forall er junk hint ww f d c p,
  (0 < hint)%nat -> N.of_nat hint < W64 -> full hint er -> sync true ww f d (AFile c p) ->
  at_once hint (skipn (N.to_nat p) c) ->
  exists fuel f' d' l v w, LineInput er junk false hint fuel f d = Ok (f', d', Some (shown l)) /\
    take_line (skipn (N.to_nat p) c) = (l, v) /\ skipn (N.to_nat p) c = w ++ v /\ sync true ww f' d' (AFile c (p + N.of_nat (length w))).
Proof.
  intros er junk hint ww f d c p H1 H2 H3 HS Ha. exists (length c + 2)%nat.
  destruct (line_input_ok er junk false hint H1 H2 H3 ww (length c + 2) f d c p (or_intror Ha) HS ltac:(lia)) as (f' & d' & l & v & w & E). exists f', d', l, v, w. exact E.
Qed.

(** Without one, every longer line makes the call read outside its block. *)
Theorem C56_grow_refuted : forall er junk hint ww f d c p fuel,
  (2 <= hint)%nat -> N.of_nat hint < W64 -> full hint er -> sync true ww f d (AFile c p) ->
  (hint <= length (skipn (N.to_nat p) c))%nat -> breakless (firstn hint (skipn (N.to_nat p) c)) ->
  LineInput er junk false hint (S (S fuel)) f d = UB.
Proof. intros. eapply line_grow; eassumption. Qed.

(** A short read(2) cuts a line in two, *)
Theorem C56_short_read_refuted : exists er c, let (f, d) := fresh_file RDONLY c in
  forall junk, match calls er junk true 1024 9 3 f d with Ok l => l <> map Some (some_lines 3 c) | _ => False end.
Proof.
  exists (fun k => match k with O => Part 2 | _ => Part 1024 end), [97; 98; 99; 10; 100]. cbn [fresh_file Open Close fst].
  intro junk. cbv. discriminate.
Qed.

(** or adds an empty line, between CR and LF. *)
Theorem C56_short_read_crlf_refuted : exists er c, let (f, d) := fresh_file RDONLY c in
  forall junk, match calls er junk true 16 9 3 f d with Ok l => l = map Some [[97]; []; [98]] /\ some_lines 3 c = [[97]; [98]; []] | _ => False end.
Proof.
  exists (fun k => match k with O => Part 2 | _ => Part 16 end), [97; 13; 10; 98]. cbn [fresh_file Open Close fst].
  intro junk. cbv. split; reflexivity.
Qed.

(** A size hint of zero never returns. *)
Theorem C56_zero_refuted : forall er junk alt fuel f d, opened f = true -> reads f = true ->
  LineInput er junk alt 0 fuel f d = Fuel.
Proof. exact line_zero. Qed.

Example C56_ex : let c := [97; 13; 10; 0; 98; 13; 99; 10; 10; 100] in
  let (f, d) := fresh_file RDONLY c in
  calls (fun _ => Part 2) (fun _ => 77) true 2 20 6 f d = Ok (map Some [[97]; [32; 98]; [99]; []; [100]; []]) /\
  calls (fun _ => Part 9) (fun _ => 77) true 3 20 6 f d = Ok (map Some (some_lines 6 c)) /\
  calls (fun _ => Part 9) (fun _ => 77) false 1 20 6 f d = Ok (map Some (some_lines 6 c)).
Proof. vm_compute. repeat split; reflexivity. Qed.

(** ** C74 *)

(** Whatever the system calls do, a successful LoadEntireFile delivers exactly the file; *)
Theorem C74_exact : forall er fuel open_ok lock_ok c r, N.of_nat (length c) < 2 ^ 62 ->
  LoadEntireFile er fuel open_ok lock_ok c = Ok (Some r) -> r = c.
Proof. exact load_ok. Qed.

(** and it is successful if the file can be opened and read(2) gives all of it. *)
Theorem C74_succeeds : forall er c, full (length c) er -> N.of_nat (length c) < 2 ^ 62 ->
  exists fuel, LoadEntireFile er fuel true true c = Ok (Some c).
Proof. intros er c H L. exists 1%nat. exact (load_done er c H L). Qed.

Example C74_ex : LoadEntireFile (fun k => match k with O => Intr | _ => Part 5 end) 4 true true [1; 2; 3] = Ok (Some [1; 2; 3]) /\
  LoadEntireFile (fun _ => Part 2) 4 true true [1; 2; 3] = Ok None.
Proof. vm_compute. split; reflexivity. Qed.

Print Assumptions C56_lines.
Print Assumptions C56_short_line.
Print Assumptions C56_grow_refuted.
Print Assumptions C56_short_read_refuted.
Print Assumptions C56_short_read_crlf_refuted.
Print Assumptions C56_zero_refuted.
Print Assumptions C74_exact.
Print Assumptions C74_succeeds.
