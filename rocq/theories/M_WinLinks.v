(** Model of utf8/utf8_file_dir.cpp, Windows part: File::Realpath 550-663, with the symbolic links
    and mount points on the way (593-644).  Definitions only; the pieces without links are those of
    M_WinReal, the reading of a link is that of WReadlink in M_WinFile.

    [cap] is the size of the local arrays, 8192 in the code.  FindFirstFileW is [find]: from a path
    name to the name the file is stored under and what its reparse point is.  The arrays of
    GetAbsoluteFilename and Filename4 hold [ga], [gb], [g4] at first whenever they are used;
    Dir::Getcwd is not called, as there is always a base directory. *)
From Verif Require Import Base M_Utf8 M_WinPath M_WinFile M_WinReal.
Open Scope N_scope.

(** A symbolic link or a mount point: the words of PathBuffer, SubstituteNameOffset and
    SubstituteNameLength *)
Record reparse := { is_symlink : bool; words : list N; name_off : nat; name_len : nat }.
(** [link]: [None]: no link; [Some None]: a link that cannot be opened or read (604, 611) *)
Record entry := { stored_name : list N; link : option (option reparse) }.

(** Filename2, FileInfo.Length, FileInfo.StartPath, Filename3, x2, NumLinks *)
Record state := { s_f2 : bytes; s_len : nat; s_sp : nat; s_f3 : bytes; s_x2 : nat; s_links : nat }.
(** The end of the loop ([None]: false is returned), or another round. *)
Inductive outcome := Stop (o : option (bytes * nat)) | Next (s : state).

Section WinLinks.
Variable cap : nat.
Variable find : list N -> option entry.
Variable there : bytes -> bool.
Variable gw : list N.
Variables ga gb g4 : bytes.
Variable sgn : bool.
Variable vol : bytes -> option N.

(** 613-634 — following the link [r] behind Filename2[0..sp) *)
Definition follow (r : reparse) (f2 : bytes) (len sp : nat) (f3 : bytes) (links : nat) : res outcome :=
  let* w := slice (path_buffer (is_symlink r) (words r)) (name_off r) (name_len r) in
  let* (d, _, _) := ConvertToUTF8 Wd2 w (Some g4) (length g4) in
  match d with
  | None => UB
  | Some f4 =>
      let* t := cstr f4 in
      let* f2 := wr f2 sp 0 in
      let* base := cstr f2 in
      let* (f3, ok) := WGetAbsoluteFilename sgn vol ga gb None f3 (Some base) t false in
      if negb ok then Ok (Stop None)
      else
        let* f2 := (if (sp <? len)%nat then wr f2 sp bsl else Ok f2) in
        let* s := cstr f3 in
        let x := length s in
        if (cap - 1 <? x + len - sp + 1)%nat then Ok (Stop None)
        else
          let* rest := slice f2 sp (len - sp + 1) in
          let* f3 := blit f3 x rest in
          let* s := cstr f3 in
          let* f2 := blit f2 0 (s ++ [0]) in
          if negb (starts false s_uni s) then Ok (Stop None)
          else
            let sp := StartPath (WGetPlatformFilenameInfo s) in
            let* f3 := blit f3 0 (firstn sp s) in
            Ok (Next {| s_f2 := f2; s_len := length s; s_sp := sp; s_f3 := f3; s_x2 := sp; s_links := links |})
  end.

(** 571-653 — one round *)
Definition real_step (st : state) : res outcome :=
  let f2 := s_f2 st in let len := s_len st in let sp := s_sp st in let f3 := s_f3 st in let x2 := s_x2 st in let links := s_links st in
  if (len <=? sp)%nat then Ok (Stop (Some (f3, x2)))
  else if (cap - 1 <=? x2)%nat then Ok (Stop None)
  else
    let* f3 := wr f3 x2 bsl in
    let x := S x2 in
    let* sp := skip_bs (len - sp) f2 sp in
    let* o := copy_part cap (len - sp) f2 sp f3 x in
    match o with
    | None => Ok (Stop None)
    | Some (sp, f3, x2) =>
        let* f3 := wr f3 x2 0 in
        let* s := slice f3 0 (x2 + 1) in
        let* (d, _) := ConvertFromUTF8 Wd2 s (Some gw) cap in
        match d with
        | None => UB
        | Some w =>
            let* u := cstr w in
            match find u with
            | None => Ok (Next {| s_f2 := f2; s_len := len; s_sp := sp; s_f3 := f3; s_x2 := x2; s_links := links |})
            | Some e =>
                let exchange n :=
                  let* room := slice f3 x (cap - x) in
                  let* (d, y, _) := ConvertToUTF8 Wd2 (stored_name e) (Some room) (cap - x) in
                  match d with
                  | None => UB
                  | Some t => let* f3 := blit f3 x t in
                              Ok (Next {| s_f2 := f2; s_len := len; s_sp := sp; s_f3 := f3; s_x2 := y + x; s_links := n |})
                  end in
                match link e with
                | None => exchange links
                | Some o =>
                    if (20 <? S links)%nat then Ok (Stop None)
                    else match o with
                      | Some r => follow r f2 len sp f3 (S links)
                      | None => exchange (S links)
                      end
                end
            end
        end
    end.

Fixpoint rounds (n : nat) (st : state) : res (option (bytes * nat)) :=
  match n with
  | O => Fuel
  | S m => let* o := real_step st in match o with Stop r => Ok r | Next st => rounds m st end
  end.

(** 550-663 *)
Definition WRealpath_links (n : nat) (g2 g3 result name : bytes) : res (bytes * bool) :=
  let* (f2, ok) := WGetPlatformFilename sgn vol g2 name false in
  if negb ok then Ok (result, false)
  else
    let* s := cstr f2 in
    if negb (starts false s_uni s) then Ok (result, false)
    else
      let sp := StartPath (WGetPlatformFilenameInfo s) in
      let* f3 := blit g3 0 (firstn sp s) in
      let* o := rounds n {| s_f2 := f2; s_len := length s; s_sp := sp; s_f3 := f3; s_x2 := sp; s_links := 0 |} in
      match o with
      | None => Ok (result, false)
      | Some (f3, x2) =>
          let* f3 := wr f3 x2 0 in
          if (length result <? S x2)%nat then Ok (result, false)
          else
            let* t := slice f3 0 (S x2) in
            let* result := blit result 0 t in
            let* r := cstr result in
            Ok (result, there r)
      end.
End WinLinks.
