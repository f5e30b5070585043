(** sync/sync_tls.cpp:59-235 in several threads with one TLS object: the allocator of M_Tls, with one
    set of queues for each thread (the value of the key, lines 44-56) and one C library allocator.
    Definitions only.

    Calls of different threads do not share anything else, so that they are taken one after the
    other.  realloc and dup_malloc are left out here (M_Tls has them).  The system has memory. *)
From Verif Require Import Base S_Seq S_Tls S_TlsThreads M_Tls.

Section Threads.
Variable node : nat.
Variable junk : nat -> nat -> N.

Record world := World { mains : nat -> option (list (list nat)); wheap : nat -> option bytes; wreq : nat }.
Definition nobody_yet : world := World (fun _ => None) (fun _ => None) 0.

(** what thread [k] sees, and what it leaves *)
Definition see (w : world) (k : nat) : tls := Tls (mains w k) (wheap w) (wreq w).
Definition leave (w : world) (k : nat) (t : tls) : world := World (fupd (mains w) k (main t)) (heap t) (req t).

Definition texec (w : world) (k : nat) (o : top) : res (world * answer) :=
  match o with
  | TInit bits => Ok (leave w k (ThreadInit (see w k) bits), ANone)
  | TMalloc n => let* (t, r) := malloc node junk (fun _ => true) (see w k) n in Ok (leave w k t, APtr r)
  | TFree p c => let* t := free node junk (see w k) (Some p) c in Ok (leave w k t, ANone)
  | TEnd => let* (t, _) := ThreadEnd (see w k) in Ok (leave w k t, ANone)
  | TWrite p i v => let* t := client_store (see w k) p i v in Ok (leave w k t, ANone)
  | TRead p i => let* v := client_load (see w k) p i in Ok (w, AByte v)
  end.
End Threads.
