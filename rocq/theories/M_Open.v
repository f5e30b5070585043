(** Model of File::Open, Close and IsOpen, utf8/utf8_file_dir.cpp:53-133, 217-226 (Windows) and
    1202-1279, 1371-1380 (POSIX), for any number of File objects and one file.  Definitions only.

    [may]: the name is acceptable, and the system lets the user open or create the file.  The
    file is not deleted or renamed, and is opened only by such objects.  O_APPEND is the subject
    of M_Append; it does not matter here.  Locks and share modes are checked by the system when
    a file is opened; calls come one after the other. *)
From Verif Require Import Base S_Open.
Open Scope nat_scope.

(** An open descriptor or handle.  [h_lock]: the lock taken by flock (POSIX), [true] LOCK_EX;
    [h_max]: MxMaxPos if this Open has set it. *)
Record handle := Handle { h_acc : access; h_share : option share; h_lock : option bool; h_max : option N }.

(** The contents of the file, and the objects 0 .. n-1 ([None]: IsOpen() is false). *)
Record world := World { content : option bytes; objs : nat -> option handle }.

Definition set_obj (w : world) (i : nat) (h : option handle) : world :=
  World (content w) (fun j => if j =? i then h else objs w j).

(** 217-226, 1371-1380 *)
Definition Close (w : world) (i : nat) : world := set_obj w i None.

(** Some open object other than [i] satisfies [p]. *)
Definition other (n : nat) (w : world) (i : nat) (p : handle -> bool) : bool :=
  existsb (fun j => negb (j =? i) && match objs w j with Some h => p h | None => false end) (seq 0 n).

(** ** POSIX *)

Definition can_write (a : access) : bool := match a with RDONLY => false | _ => true end.
Definition can_read (a : access) : bool := match a with WRONLY => false | _ => true end.

(** open(2).  O_TRUNC with O_RDONLY is not specified by POSIX; [rt]: it truncates (as on Linux). *)
Definition sys_open (rt : bool) (old : option bytes) (fl : flags) (a : access) : option bytes :=
  match old with
  | None => if f_creat fl then Some [] else None
  | Some c =>
      if f_creat fl && f_excl fl then None
      else Some (if f_trunc fl && (can_write a || rt) then [] else c)
  end.

(** flock(2) with LOCK_NB: [excl] is LOCK_EX, otherwise LOCK_SH. *)
Definition flock_ok (n : nat) (w : world) (i : nat) (excl : bool) : bool :=
  negb (other n w i (fun h => match h_lock h with None => false | Some e => e || excl end)).

(** 1207-1279; [sh]: [None] is a value that is none of the four. *)
Definition Open (rt : bool) (n : nat) (w : world) (i : nat) (fl : flags) (sh : option share) (may : bool) : world * bool :=
  let w0 := Close w i in
  match f_acc fl with
  | None => (w0, false)
  | Some a =>
      if negb may then (w0, false)
      else match sys_open rt (content w0) fl a with
        | None => (w0, false)
        | Some c =>
            let w1 := World (Some c) (objs w0) in
            match sh with
            | None => (set_obj w1 i (Some (Handle a sh None None)), false)
            | Some s =>
                let excl := match s with ShareBoth => false | _ => true end in
                if flock_ok n w1 i excl
                then (set_obj w1 i (Some (Handle a sh (Some excl) (Some (N.of_nat (length c))))), true)
                else (set_obj w1 i (Some (Handle a sh None None)), false)
            end
        end
  end.

(** ** Windows *)

(** FILE_SHARE_READ and FILE_SHARE_WRITE (89-93) *)
Definition share_read (s : share) : bool := match s with ShareRead | ShareBoth => true | _ => false end.
Definition share_write (s : share) : bool := match s with ShareWrite | ShareBoth => true | _ => false end.

(** The check of CreateFileW: the access asked for is shared by the others, and theirs here. *)
Definition violates (a : access) (s : share) (h : handle) : bool :=
  match h_share h with
  | None => false
  | Some s' =>
      (can_read a && negb (share_read s')) || (can_write a && negb (share_write s')) ||
      (can_read (h_acc h) && negb (share_read s)) || (can_write (h_acc h) && negb (share_write s))
  end.

(** 58-133.  CREATE_NEW fails if there is a file, OPEN_EXISTING if there is none, OPEN_ALWAYS
    makes one (95-96).  SetEndOfFile (115) needs a handle that may write; its result is ignored. *)
Definition WOpen (n : nat) (w : world) (i : nat) (fl : flags) (sh : option share) (may : bool) : world * bool :=
  let w0 := Close w i in
  match f_acc fl, sh with
  | None, _ | _, None => (w0, false)
  | Some a, Some s =>
      if negb may then (w0, false)
      else
        let got :=
          match content w0 with
          | None => if f_creat fl then Some [] else None
          | Some c =>
              if f_creat fl && f_excl fl then None
              else if other n w0 i (violates a s) then None else Some c
          end in
        match got with
        | None => (w0, false)
        | Some c =>
            let c1 := if f_trunc fl && can_write a then [] else c in
            let size := if f_trunc fl then 0%N else N.of_nat (length c) in
            (set_obj (World (Some c1) (objs w0)) i (Some (Handle a sh None (Some size))), true)
        end
  end.

(** ** Sequences of calls *)
Inductive op := OOpen (i : nat) (fl : flags) (sh : option share) (may : bool) | OClose (i : nat).

Definition step (n : nat) (open : world -> nat -> flags -> option share -> bool -> world * bool) (w : world) (o : op) : world * bool :=
  match o with
  | OOpen i fl sh may => if i <? n then open w i fl sh may else (w, false)
  | OClose i => if i <? n then (Close w i, true) else (w, false)
  end.

Fixpoint run (n : nat) (open : world -> nat -> flags -> option share -> bool -> world * bool) (w : world) (l : list op) : world * list bool :=
  match l with
  | [] => (w, [])
  | o :: r => let '(w1, b) := step n open w o in let '(w2, bs) := run n open w1 r in (w2, b :: bs)
  end.

Definition start (c : option bytes) : world := World c (fun _ => None).
