(** Specification of one allocator used by several threads.  Nothing here refers to the model. *)
From Verif Require Import Base S_Seq S_Tls.

(** The blocks the program owns, with their contents, and the threads that are between ThreadInit
    and ThreadEnd. *)
Record tview := TView { owned : nat -> option bytes; on : nat -> bool }.
Definition tnothing : tview := TView (fun _ => None) (fun _ => false).

(** The calls of a thread; reading and writing a block. *)
Inductive top :=
| TInit (bits : nat)
| TMalloc (n : nat)
| TFree (p : nat) (cache : bool)
| TEnd
| TWrite (p i : nat) (v : N)
| TRead (p i : nat).

(** The program's side of the contract: threads free blocks the program owns, whichever thread got
    them, between their ThreadInit and ThreadEnd.  [P]: the sizes of caches in use. *)
Definition tallowed (P : nat -> Prop) (s : tview) (k : nat) (o : top) : Prop :=
  match o with
  | TInit bits => P bits
  | TMalloc n => n <= 2 ^ 30
  | TFree p _ => owned s p <> None /\ on s k = true
  | TEnd => True
  | TWrite p i _ | TRead p i => exists c, owned s p = Some c /\ i < length c
  end.

(** The allocator's side, for thread [k]. *)
Inductive tstep (s : tview) (k : nat) : top -> answer -> tview -> Prop :=
| t_init bits : tstep s k (TInit bits) ANone (TView (owned s) (fupd (on s) k true))
| t_off n : on s k = false -> tstep s k (TMalloc n) (APtr None) s
| t_zero : tstep s k (TMalloc 0) (APtr None) s
| t_malloc n p c : 0 < n -> on s k = true -> length c = n -> owned s p = None ->
    tstep s k (TMalloc n) (APtr (Some p)) (TView (fupd (owned s) p (Some c)) (on s))
| t_free p b : tstep s k (TFree p b) ANone (TView (fupd (owned s) p None) (on s))
| t_end : tstep s k TEnd ANone (TView (owned s) (fupd (on s) k false))
| t_write p i v c : owned s p = Some c -> tstep s k (TWrite p i v) ANone (TView (fupd (owned s) p (Some (upd c i v))) (on s))
| t_read p i c v : owned s p = Some c -> nth_error c i = Some v -> tstep s k (TRead p i) (AByte v) s.

(** Where one thread caches blocks of 2^i bytes and another does not, such a block with its tag has
    room for a list node. *)
Definition compatible (node : nat) (P : nat -> Prop) : Prop := forall b1 b2 i, P b1 -> P b2 -> b1 <= i < b2 -> 3 <= i -> node <= 2 ^ i + 1.
