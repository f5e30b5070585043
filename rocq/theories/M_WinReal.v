(** Model of utf8/utf8_file_dir.cpp, Windows part: File::Realpath 550-663, for paths on which no
    component is a symbolic link or mount point.  Definitions only.

    [cap] is the size of the local arrays, 8192 in the code.  FindFirstFileW is [find]: from a path
    name to the name the file is stored under.  File::Exists (538-547) is [there]. *)
From Verif Require Import Base M_Utf8 M_WinPath.
Open Scope N_scope.

Section WinReal.
Variable cap : nat.
Variable find : list N -> option (list N).
Variable there : bytes -> bool.
(** what FindFilename holds at first *)
Variable gw : list N.

(** 578 — [n]: FileInfo.Length - FileInfo.StartPath *)
Fixpoint skip_bs (n : nat) (f2 : bytes) (sp : nat) : res nat :=
  match n with
  | O => Ok sp
  | S m => let* c := rd f2 sp in if c =? bsl then skip_bs m f2 (S sp) else Ok sp
  end.

(** 579-583 — StartPath, Filename3, x2; [None]: false is returned *)
Fixpoint copy_part (n : nat) (f2 : bytes) (sp : nat) (f3 : bytes) (x2 : nat) : res (option (nat * bytes * nat)) :=
  match n with
  | O => Ok (Some (sp, f3, x2))
  | S m =>
      let* c := rd f2 sp in
      if c =? bsl then Ok (Some (sp, f3, x2))
      else if (cap - 1 <=? x2)%nat then Ok None
      else let* f3 := wr f3 x2 c in copy_part m f2 (S sp) f3 (S x2)
  end.

(** 571-653 without 593-644 — Filename3 and x2; [None]: false is returned.  [len]: FileInfo.Length *)
Fixpoint real_loop (fuel : nat) (f2 : bytes) (len sp : nat) (f3 : bytes) (x2 : nat) : res (option (bytes * nat)) :=
  if (len <=? sp)%nat then Ok (Some (f3, x2))
  else
  match fuel with
  | O => Fuel
  | S n =>
      if (cap - 1 <=? x2)%nat then Ok None
      else
        let* f3 := wr f3 x2 bsl in
        let x := S x2 in
        let* sp := skip_bs (len - sp) f2 sp in
        let* o := copy_part (len - sp) f2 sp f3 x in
        match o with
        | None => Ok None
        | Some (sp, f3, x2) =>
            let* f3 := wr f3 x2 0 in
            let* s := slice f3 0 (x2 + 1) in
            let* (d, _) := ConvertFromUTF8 Wd2 s (Some gw) cap in
            match d with
            | None => UB
            | Some w =>
                let* u := cstr w in
                match find u with
                | None => real_loop n f2 len sp f3 x2
                | Some name =>
                    let* room := slice f3 x (cap - x) in
                    let* (d, y, _) := ConvertToUTF8 Wd2 name (Some room) (cap - x) in
                    match d with
                    | None => UB
                    | Some t => let* f3 := blit f3 x t in real_loop n f2 len sp f3 (y + x)
                    end
                end
            end
        end
  end.

(** 550-663 — [sgn], [vol], [g2]: see WGetPlatformFilename; [g3]: what Filename3 holds at first;
    [result]: Result, its length ResultSize *)
Definition WRealpath (sgn : bool) (vol : bytes -> option N) (g2 g3 result name : bytes) : res (bytes * bool) :=
  let* (f2, ok) := WGetPlatformFilename sgn vol g2 name false in
  if negb ok then Ok (result, false)
  else
    let* s := cstr f2 in
    if negb (starts false s_uni s) then Ok (result, false)
    else
      let sp := StartPath (WGetPlatformFilenameInfo s) in
      let* f3 := blit g3 0 (firstn sp s) in
      let* o := real_loop (length s) f2 (length s) sp f3 sp in
      match o with
      | None => Ok (result, false)
      | Some (f3, x2) =>
          let* f3 := wr f3 x2 0 in
          if (length result <? S x2)%nat then Ok (result, false)
          else
            let* t := slice f3 0 (S x2) in
            let* result := blit result 0 t in
            let* r := cstr result in
            Ok (result, there r)
      end.
End WinReal.
