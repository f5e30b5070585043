(** Property theorems C01-C04: integer formatting (convert/convert_int.cpp). *)
From Verif Require Import Base S_Numeral S_Filesize M_ConvertInt P_ConvertInt.
Open Scope N_scope.

(** C01: without separator the call never leaves the buffer, succeeds exactly when radix is
    valid and the numeral with its terminator fits, and then the buffer starts with it. *)
Theorem C01_tostring_exact :
  forall (buf : bytes) (num radix : N), num < W64 ->
  exists b' ok, ToStringU buf num 0 radix = Ok (b', ok) /\ length b' = length buf /\
  (ok = true <->
     2 <= radix <= 36 /\ exists nd, is_numeral radix num nd /\ (length nd + 1 <= length buf)%nat) /\
  (ok = true -> forall nd, is_numeral radix num nd -> exists rest, b' = map glyph nd ++ 0 :: rest).
Proof. exact tostring_plain. Qed.
Print Assumptions C01_tostring_exact.

(** The numeral the theorem speaks about exists and is unique, so "the" numeral is meant. *)
Theorem C01_numeral_unique :
  forall r n, 2 <= r -> exists! ds, is_numeral r n ds.
Proof. exact numeral_exists_unique. Qed.
Print Assumptions C01_numeral_unique.

Example C01_example :
  ToStringU (repeat 7 5) 65535 0 16 = Ok ([70;70;70;70;0], true) /\
  ToStringU (repeat 7 4) 65535 0 16 = Ok ([70;70;70;0], false) /\
  is_numeral 16 65535 [15;15;15;15].
Proof.
  split; [vm_compute; reflexivity|]. split; [vm_compute; reflexivity|].
  split; [discriminate|]. split; [repeat constructor|]. split; [discriminate|reflexivity].
Qed.

(** C02: with a separator. *)
Theorem C02_separator_exact :
  forall (buf : bytes) (num sep radix : N), num < W64 -> sep <> 0 ->
  exists b' ok, ToStringU buf num sep radix = Ok (b', ok) /\ length b' = length buf /\
  (ok = true <->
     2 <= radix <= 36 /\ exists nd, is_numeral radix num nd /\
        (length nd + (length nd - 1) / 3 + 1 <= length buf)%nat) /\
  (ok = true -> forall nd, is_numeral radix num nd ->
     exists rest, b' = group3 sep (map glyph nd) ++ 0 :: rest).
Proof. exact tostring_sep. Qed.
Print Assumptions C02_separator_exact.

(** C02: deleting the separators gives the plain text back (the separator must not itself
    be one of the digits shown). *)
Theorem C02_separator_removal :
  forall sep ds, ~ In sep (map glyph ds) ->
  filter (fun c => negb (c =? sep)) (group3 sep (map glyph ds)) = map glyph ds.
Proof. exact (fun sep ds => group3_remove sep (map glyph ds)). Qed.
Print Assumptions C02_separator_removal.

Example C02_example_fits :
  ToStringU (repeat 7 10) 1234567 44 10 = Ok ([49;44;50;51;52;44;53;54;55;0], true).
Proof. vm_compute. reflexivity. Qed.

(** C03: every signed value except the most negative one. *)
Theorem C03_signed_exact :
  forall (buf : bytes) (num : Z) (sep radix : N), (- 2^63 < num < 2^63)%Z ->
  exists b' ok, ToStringI buf num sep radix = Ok (b', ok) /\ length b' = length buf /\
  (ok = true <->
     2 <= radix <= 36 /\ exists nd, is_numeral radix (Z.to_N (Z.abs num)) nd /\
       ((if num <? 0 then 1 else 0)%Z + Z.of_nat (length (numeral_text sep nd)) + 1
          <= Z.of_nat (length buf))%Z) /\
  (ok = true -> forall nd, is_numeral radix (Z.to_N (Z.abs num)) nd ->
     exists rest, b' = (if (num <? 0)%Z then [45] else []) ++ numeral_text sep nd ++ 0 :: rest).
Proof. exact (fun buf num sep radix H => ToStringI_total buf num sep radix (proj1 H)). Qed.
Print Assumptions C03_signed_exact.

(** C03 fails for INT64_MIN: the negation on line 53 overflows, for every buffer that can
    hold anything at all and every radix. *)
Theorem C03_int64_min_refuted :
  exists num : Z, (- 2^63 <= num < 2^63)%Z /\
  forall buf sep radix, (2 <= length buf)%nat -> ToStringI buf num sep radix = UB.
Proof. exact int_min_refuted. Qed.
Print Assumptions C03_int64_min_refuted.

Example C03_example :
  ToStringI (repeat 7 6) (-1234)%Z 44 10 = Ok ([45;44;50;51;52;0], false) /\
  ToStringI (repeat 7 7) (-1234)%Z 44 10 = Ok ([45;49;44;50;51;52;0], true).
Proof. split; vm_compute; reflexivity. Qed.

(** C04: the file-size text.  It shows floor(num * 10^nf / unit) whenever the scaled
    remainder fits in 64 bits; success exactly when the text fits (and the buffer passes the
    initial size check of the code). *)
Theorem C04_filesize_exact :
  forall buf num numfrac numsep decsep unitsep unit,
  num < W64 -> numfrac + 2 < W64 ->
  exists b' ok k text,
    ToFilesizeU buf num numfrac numsep decsep unitsep unit = Ok (b', ok) /\
    length b' = length buf /\
    is_unit (negb (numfrac =? 0)) num k /\
    ((num mod unit_size k) * 10 ^ (shown_frac k numfrac) < W64 ->
     size_text k (shown_frac k numfrac) (num / unit_size k)
      (true_frac num k (shown_frac k numfrac)) numsep decsep unitsep unit text) /\
    (ok = true <-> (5 + length unit <= length buf)%nat /\ (length text + 1 <= length buf)%nat) /\
    (ok = true -> exists rest, b' = text ++ 0 :: rest).
Proof. exact (fun buf num numfrac numsep decsep unitsep unit H _ =>
  ToFilesizeU_correct buf num numfrac numsep decsep unitsep unit H). Qed.
Print Assumptions C04_filesize_exact.

(** C04: with at most 13, 10, 7, 4, 1 fraction digits for M, G, T, P, E this always holds;
    in particular the default of two digits is exact below the E range. *)
Theorem C04_filesize_digit_limits :
  forall buf num numfrac numsep decsep unitsep unit,
  num < W64 ->
  exists b' ok k text,
    ToFilesizeU buf num numfrac numsep decsep unitsep unit = Ok (b', ok) /\
    is_unit (negb (numfrac =? 0)) num k /\
    (numfrac <= frac_limit k ->
     size_text k (shown_frac k numfrac) (num / unit_size k)
      (true_frac num k (shown_frac k numfrac)) numsep decsep unitsep unit text) /\
    (ok = true -> exists rest, b' = text ++ 0 :: rest).
Proof. exact ToFilesizeU_limit. Qed.
Print Assumptions C04_filesize_digit_limits.

(** C04 fails for 1.5 EB with two fraction digits: the text shown is "1.02 EB". *)
Theorem C04_filesize_wrap_refuted :
  exists num, num < W64 /\
  exists b', ToFilesizeU (repeat 0 16) num 2 0 46 32 [98] = Ok (b', true) /\
  forall k text rest,
    is_unit true num k ->
    size_text k 2 (num / unit_size k) (true_frac num k 2) 0 46 32 [98] text ->
    b' <> text ++ 0 :: rest.
Proof. exact filesize_wrap_refuted. Qed.
Print Assumptions C04_filesize_wrap_refuted.

Example C04_example :
  exists rest, ToFilesizeU (repeat 7 12) 1610612736 2 0 46 32 [98;121;116;101;115] =
    Ok ([49;46;53;48;32;71;66;0] ++ rest, true).
Proof. eexists. vm_compute. reflexivity. Qed.
