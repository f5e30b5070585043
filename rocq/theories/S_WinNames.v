(** When two synchronisation objects of the library have a kernel object in common on Windows (C148).
    Independent of the model. *)
From Verif Require Import Base S_Numeral S_Name.
Open Scope N_scope.

Inductive class := CMutex | CSemaphore | CEvent | CReadWrite | CSharedMem.

(** "-Sync_ReadWrite-" and "-Sync_SharedMem" *)
Definition rw_text : bytes := [45; 83; 121; 110; 99; 95; 82; 101; 97; 100; 87; 114; 105; 116; 101; 45].
Definition shm_text : bytes := [45; 83; 121; 110; 99; 95; 83; 104; 97; 114; 101; 100; 77; 101; 109].

(** mutexes, semaphores and events have the name the caller gives *)
Definition simple (c : class) : Prop := match c with CMutex | CSemaphore | CEvent => True | _ => False end.

(** The cases in which objects with the given class, name and size meet *)
Inductive meet : class -> bytes -> N -> class -> bytes -> N -> Prop :=
  | meet_simple c1 c2 n s1 s2 : simple c1 -> simple c2 -> meet c1 n s1 c2 n s2
  | meet_rw n s1 s2 : meet CReadWrite n s1 CReadWrite n s2
  | meet_shm n s1 s2 : s1 mod 2 ^ 32 = s2 mod 2 ^ 32 -> meet CSharedMem n s1 CSharedMem n s2
  | meet_simple_rw c n s1 s2 d : simple c -> 48 <= d < 52 -> meet c (n ++ rw_text ++ [d]) s1 CReadWrite n s2
  | meet_rw_simple c n s1 s2 d : simple c -> 48 <= d < 52 -> meet CReadWrite n s1 c (n ++ rw_text ++ [d]) s2
  | meet_simple_shm c n s1 s2 d : simple c -> decimal (s2 mod 2 ^ 32) d -> meet c (n ++ 45 :: d ++ shm_text) s1 CSharedMem n s2
  | meet_shm_simple c n s1 s2 d : simple c -> decimal (s1 mod 2 ^ 32) d -> meet CSharedMem n s1 c (n ++ 45 :: d ++ shm_text) s2.
