(** Model of sync/sync_readwritelock.cpp: ReadLock 258-296, WriteLock 298-320, ReadUnlock 322-350,
    WriteUnlock 352-360.  Definitions only.

    The two semaphores of one and the event are the atomic ones: C42_atomic and C44_atomic show
    that their calls act like that, and a wait may fail at any time.  The calculation of the
    remaining time (which takes seconds for milliseconds) therefore plays no role. *)
From Verif Require Import Base S_Sync M_Sem.
Open Scope N_scope.

Inductive rwpc :=
  | XIdle
  | R1   (* 268: waits for WWait *)
  | R2   (* 272: waits for RCountMutex *)
  | R2x  (* 274: gives WWait back and fails *)
  | R3   (* 280: resets the event *)
  | R3x  (* 282: gives RCountMutex back, then WWait *)
  | R4   (* 289: increments *)
  | R5   (* 292: gives RCountMutex back *)
  | R6   (* 293: gives WWait back *)
  | W1   (* 308: waits for WWait *)
  | W2   (* 312: waits for the event *)
  | W2x  (* 314: gives WWait back and fails *)
  | U1   (* 327: waits for RCountMutex *)
  | U2   (* 330: decrements *)
  | U2x  (* 333: gives RCountMutex back and fails *)
  | U3   (* 339: fires the event if it was the last *)
  | U5   (* 347, 341: gives RCountMutex back *)
  | V1.  (* 357: gives WWait back *)

(** The counts (1 or 0) of WWaitMutex and RCountMutex, MxRCount[0], the state of RWaitEvent. *)
Record rwlock := RWLock { ww : bool; rc : bool; rcount : N; sig : bool; xthreads : list rwpc }.

(** 247-250 *)
Definition rw_init (n : nat) : rwlock := RWLock true true 0 true (repeat XIdle n).

Section RW.
(** whether waiting forever, releasing, firing or resetting may fail *)
Variable errors : bool.

Definition xput (s : rwlock) (i : nat) (p : rwpc) : list rwpc := upd (xthreads s) i p.
Definition at_ (s : rwlock) (i : nat) (p : rwpc) : Prop := nth_error (xthreads s) i = Some p.

(** ReleaseUnixSemaphore; its result is ignored everywhere *)
Inductive freed : bool -> bool -> Prop :=
  | rel_ok b : freed b true
  | rel_fail b : errors = true -> freed b b.

Inductive xstep : rwlock -> option rw_event -> rwlock -> Prop :=
  | x_rcall s i : at_ s i XIdle -> xstep s None (RWLock (ww s) (rc s) (rcount s) (sig s) (xput s i R1))
  (* 268 *)
  | x_r1 s i : at_ s i R1 -> ww s = true -> xstep s None (RWLock false (rc s) (rcount s) (sig s) (xput s i R2))
  | x_r1no s i : at_ s i R1 -> xstep s (Some (RNot i)) (RWLock (ww s) (rc s) (rcount s) (sig s) (xput s i XIdle))
  (* 272 *)
  | x_r2 s i : at_ s i R2 -> rc s = true -> xstep s None (RWLock (ww s) false (rcount s) (sig s) (xput s i R3))
  | x_r2no s i : at_ s i R2 -> xstep s None (RWLock (ww s) (rc s) (rcount s) (sig s) (xput s i R2x))
  (* 274, 283 *)
  | x_r2x s i b : at_ s i R2x -> freed (ww s) b -> xstep s (Some (RNot i)) (RWLock b (rc s) (rcount s) (sig s) (xput s i XIdle))
  (* 280 *)
  | x_r3 s i : at_ s i R3 -> xstep s None (RWLock (ww s) (rc s) (rcount s) false (xput s i R4))
  | x_r3no s i : at_ s i R3 -> errors = true -> xstep s None (RWLock (ww s) (rc s) (rcount s) (sig s) (xput s i R3x))
  (* 282 *)
  | x_r3x s i b : at_ s i R3x -> freed (rc s) b -> xstep s None (RWLock (ww s) b (rcount s) (sig s) (xput s i R2x))
  (* 289 *)
  | x_r4 s i : at_ s i R4 -> xstep s None (RWLock (ww s) (rc s) ((rcount s + 1) mod W32) (sig s) (xput s i R5))
  (* 292 *)
  | x_r5 s i b : at_ s i R5 -> freed (rc s) b -> xstep s None (RWLock (ww s) b (rcount s) (sig s) (xput s i R6))
  (* 293-295 *)
  | x_r6 s i b : at_ s i R6 -> freed (ww s) b -> xstep s (Some (RGot i)) (RWLock b (rc s) (rcount s) (sig s) (xput s i XIdle))
  | x_wcall s i : at_ s i XIdle -> xstep s None (RWLock (ww s) (rc s) (rcount s) (sig s) (xput s i W1))
  (* 308 *)
  | x_w1 s i : at_ s i W1 -> ww s = true -> xstep s None (RWLock false (rc s) (rcount s) (sig s) (xput s i W2))
  | x_w1no s i : at_ s i W1 -> xstep s (Some (WNot i)) (RWLock (ww s) (rc s) (rcount s) (sig s) (xput s i XIdle))
  (* 312, 319; the event is manual *)
  | x_w2 s i : at_ s i W2 -> sig s = true -> xstep s (Some (WGot i)) (RWLock (ww s) (rc s) (rcount s) (sig s) (xput s i XIdle))
  | x_w2no s i : at_ s i W2 -> xstep s None (RWLock (ww s) (rc s) (rcount s) (sig s) (xput s i W2x))
  (* 314-316 *)
  | x_w2x s i b : at_ s i W2x -> freed (ww s) b -> xstep s (Some (WNot i)) (RWLock b (rc s) (rcount s) (sig s) (xput s i XIdle))
  | x_ucall s i : at_ s i XIdle -> xstep s (Some (RUnlock i)) (RWLock (ww s) (rc s) (rcount s) (sig s) (xput s i U1))
  (* 327 *)
  | x_u1 s i : at_ s i U1 -> rc s = true -> xstep s None (RWLock (ww s) false (rcount s) (sig s) (xput s i U2))
  | x_u1no s i : at_ s i U1 -> errors = true -> xstep s None (RWLock (ww s) (rc s) (rcount s) (sig s) (xput s i XIdle))
  (* 330 *)
  | x_u2 s i : at_ s i U2 -> rcount s <> 0 -> xstep s (Some (RPut i)) (RWLock (ww s) (rc s) (rcount s - 1) (sig s) (xput s i U3))
  | x_u2no s i : at_ s i U2 -> rcount s = 0 -> xstep s None (RWLock (ww s) (rc s) (rcount s) (sig s) (xput s i U2x))
  (* 333 *)
  | x_u2x s i b : at_ s i U2x -> freed (rc s) b -> xstep s None (RWLock (ww s) b (rcount s) (sig s) (xput s i XIdle))
  (* 339 *)
  | x_u3 s i : at_ s i U3 -> rcount s <> 0 -> xstep s None (RWLock (ww s) (rc s) (rcount s) (sig s) (xput s i U5))
  | x_u3fire s i : at_ s i U3 -> rcount s = 0 -> xstep s None (RWLock (ww s) (rc s) (rcount s) true (xput s i U5))
  | x_u3no s i : at_ s i U3 -> rcount s = 0 -> errors = true -> xstep s None (RWLock (ww s) (rc s) (rcount s) (sig s) (xput s i U5))
  (* 347, 341 *)
  | x_u5 s i b : at_ s i U5 -> freed (rc s) b -> xstep s None (RWLock (ww s) b (rcount s) (sig s) (xput s i XIdle))
  | x_vcall s i : at_ s i XIdle -> xstep s (Some (WUnlock i)) (RWLock (ww s) (rc s) (rcount s) (sig s) (xput s i V1))
  (* 357 *)
  | x_v1 s i b : at_ s i V1 -> freed (ww s) b -> xstep s None (RWLock b (rc s) (rcount s) (sig s) (xput s i XIdle)).

Inductive xrun : rwlock -> list rw_event -> rwlock -> Prop :=
  | xrun_nil s : xrun s [] s
  | xrun_step s tr s1 e s2 : xrun s tr s1 -> xstep s1 e s2 -> xrun s (tr ++ match e with Some x => [x] | None => [] end) s2.
End RW.
