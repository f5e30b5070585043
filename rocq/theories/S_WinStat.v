(** Specification of Stat and Symlink on Windows.  Nothing here refers to the model. *)
From Verif Require Import Base S_Path S_WinPath.
Open Scope N_scope.

(** What the system holds for a name: the word of attributes and the two halves of the size. *)
Record attr_data := AttrData { dwFileAttributes : N; nFileSizeHigh : N; nFileSizeLow : N }.
(** A link has data of its own; GetFileAttributesExW delivers those. *)
Inductive thing := Plain (a : attr_data) | LinkTo (own : attr_data) (target : option attr_data).
Definition own_data (t : thing) : attr_data := match t with Plain a => a | LinkTo a _ => a end.
(** What is asked for: a link itself, or what it leads to. *)
Definition stands_for (t : thing) (link : bool) : option attr_data :=
  match t with Plain a => Some a | LinkTo a o => if link then Some a else o end.

(** ** st_mode *)
Definition IFMT : N := 61440.    (* 0170000 *)
Definition IFLNK : N := 40960.   (* 0120000 *)
Definition IFREG : N := 32768.
Definition IFDIR : N := 16384.
Inductive ftype := TLink | TDir | TFile.
Definition type_of (mode : N) : option ftype :=
  let t := N.land mode IFMT in
  if t =? IFLNK then Some TLink else if t =? IFDIR then Some TDir else if t =? IFREG then Some TFile else None.
Definition readable (mode : N) : bool := N.testbit mode 8.
Definition writable (mode : N) : bool := N.testbit mode 7.
Definition executable (mode : N) : bool := N.testbit mode 6.

(** A program by its name: it ends in one of these extensions, in whatever case, and is more than that. *)
Definition program (f : bytes) : Prop :=
  exists s e, f = s ++ e /\ s <> [] /\ In (map upper e) [[46; 69; 88; 69]; [46; 67; 79; 77]; [46; 66; 65; 84]; [46; 67; 77; 68]].

(** ** Links *)
(** A name: from the root, or seen from somewhere. *)
Inductive name := Abs (c : list bytes) | Rel (c : list bytes).
Definition seen_from (base : list bytes) (n : name) : list bytes :=
  match n with Abs c => resolve [] c | Rel c => resolve base c end.
(** Where a link leads: its text is seen from the directory it is in. *)
Definition leads_to (link : list bytes) (target : name) : list bytes := seen_from (removelast link) target.

(** A tree: for every place that exists, whether it is a directory. *)
Definition tree_like (k : list bytes -> option bool) : Prop :=
  forall p q, q <> [] -> k (p ++ q) <> None -> k p = Some true.
