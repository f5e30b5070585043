(** Model of sync/sync_readwritelock.cpp, Windows part: ReadLock 68-115, WriteLock 117-140,
    ReadUnlock 142-174, WriteUnlock 176-184.  Definitions only.

    The three semaphores and the event are Windows objects, whose calls are atomic.  A wait with a
    timeout may fail at any time, so that the calculation of the remaining time (M_Time) plays no
    role here.  Names and Create are not modelled. *)
From Verif Require Import Base S_Sync.
Open Scope N_scope.

(** The count MxWinRSemaphore has at first and at most (55). *)
Definition LONG_MAX : N := 2147483647.

Inductive wrpc :=
  | YIdle
  | Y1   (* 78: waits for WWaitMutex *)
  | Y2   (* 83: waits for RSemMutex *)
  | Y2x  (* 85: gives WWaitMutex back and fails *)
  | Y3   (* 92: waits for RSemaphore *)
  | Y3x  (* 94: gives RSemMutex back, then WWaitMutex *)
  | Y4   (* 101: resets the event *)
  | Y4x  (* 103: gives RSemaphore back, then the others *)
  | Y5   (* 111: gives RSemMutex back *)
  | Y6   (* 112: gives WWaitMutex back *)
  | Z1   (* 127: waits for WWaitMutex *)
  | Z2   (* 132: waits for the event *)
  | Z2x  (* 134: gives WWaitMutex back and fails *)
  | T1   (* 147: waits for RSemMutex *)
  | T2   (* 152: gives RSemaphore back *)
  | T2x  (* 154: gives RSemMutex back and fails *)
  | T3 (last : bool)  (* 160: fires the event if Val was LONG_MAX - 1 *)
  | T5   (* 171, 164: gives RSemMutex back *)
  | O1.  (* 181: gives WWaitMutex back *)

(** Whether WWaitMutex and RSemMutex are available, the count of RSemaphore, the state of RWaitEvent. *)
Record wrlock := WRLock { yww : bool; yrm : bool; yrs : N; ysig : bool; ythreads : list wrpc }.

(** 52-59 *)
Definition wr_init (n : nat) : wrlock := WRLock true true LONG_MAX true (repeat YIdle n).

Section WinRW.
(** whether calls may fail for other reasons than time *)
Variable errors : bool.

Definition yput (s : wrlock) (i : nat) (p : wrpc) : list wrpc := upd (ythreads s) i p.
Definition yat (s : wrlock) (i : nat) (p : wrpc) : Prop := nth_error (ythreads s) i = Some p.

(** ReleaseSemaphore of a semaphore of one; its result is ignored; beyond the maximum it fails and
    changes nothing *)
Inductive given : bool -> bool -> Prop :=
  | gv_ok b : given b true
  | gv_fail b : errors = true -> given b b.
(** ReleaseSemaphore(MxWinRSemaphore, 1, NULL) *)
Inductive given_back : N -> N -> Prop :=
  | gb_ok c : c < LONG_MAX -> given_back c (c + 1)
  | gb_full c : LONG_MAX <= c -> given_back c c
  | gb_fail c : errors = true -> given_back c c.

Inductive ystep : wrlock -> option rw_event -> wrlock -> Prop :=
  | y_rcall s i : yat s i YIdle -> ystep s None (WRLock (yww s) (yrm s) (yrs s) (ysig s) (yput s i Y1))
  (* 78-79 *)
  | y_1 s i : yat s i Y1 -> yww s = true -> ystep s None (WRLock false (yrm s) (yrs s) (ysig s) (yput s i Y2))
  | y_1no s i : yat s i Y1 -> ystep s (Some (RNot i)) (WRLock (yww s) (yrm s) (yrs s) (ysig s) (yput s i YIdle))
  (* 83 *)
  | y_2 s i : yat s i Y2 -> yrm s = true -> ystep s None (WRLock (yww s) false (yrs s) (ysig s) (yput s i Y3))
  | y_2no s i : yat s i Y2 -> ystep s None (WRLock (yww s) (yrm s) (yrs s) (ysig s) (yput s i Y2x))
  (* 85-87, 95-97, 105-107 *)
  | y_2x s i b : yat s i Y2x -> given (yww s) b -> ystep s (Some (RNot i)) (WRLock b (yrm s) (yrs s) (ysig s) (yput s i YIdle))
  (* 92 *)
  | y_3 s i : yat s i Y3 -> 0 < yrs s -> ystep s None (WRLock (yww s) (yrm s) (yrs s - 1) (ysig s) (yput s i Y4))
  | y_3no s i : yat s i Y3 -> ystep s None (WRLock (yww s) (yrm s) (yrs s) (ysig s) (yput s i Y3x))
  (* 94, 104 *)
  | y_3x s i b : yat s i Y3x -> given (yrm s) b -> ystep s None (WRLock (yww s) b (yrs s) (ysig s) (yput s i Y2x))
  (* 101 *)
  | y_4 s i : yat s i Y4 -> ystep s None (WRLock (yww s) (yrm s) (yrs s) false (yput s i Y5))
  | y_4no s i : yat s i Y4 -> errors = true -> ystep s None (WRLock (yww s) (yrm s) (yrs s) (ysig s) (yput s i Y4x))
  (* 103 *)
  | y_4x s i c : yat s i Y4x -> given_back (yrs s) c -> ystep s None (WRLock (yww s) (yrm s) c (ysig s) (yput s i Y3x))
  (* 111 *)
  | y_5 s i b : yat s i Y5 -> given (yrm s) b -> ystep s None (WRLock (yww s) b (yrs s) (ysig s) (yput s i Y6))
  (* 112-114 *)
  | y_6 s i b : yat s i Y6 -> given (yww s) b -> ystep s (Some (RGot i)) (WRLock b (yrm s) (yrs s) (ysig s) (yput s i YIdle))
  | y_wcall s i : yat s i YIdle -> ystep s None (WRLock (yww s) (yrm s) (yrs s) (ysig s) (yput s i Z1))
  (* 127-128 *)
  | y_w1 s i : yat s i Z1 -> yww s = true -> ystep s None (WRLock false (yrm s) (yrs s) (ysig s) (yput s i Z2))
  | y_w1no s i : yat s i Z1 -> ystep s (Some (WNot i)) (WRLock (yww s) (yrm s) (yrs s) (ysig s) (yput s i YIdle))
  (* 132, 139; the event is manual *)
  | y_w2 s i : yat s i Z2 -> ysig s = true -> ystep s (Some (WGot i)) (WRLock (yww s) (yrm s) (yrs s) (ysig s) (yput s i YIdle))
  | y_w2no s i : yat s i Z2 -> ystep s None (WRLock (yww s) (yrm s) (yrs s) (ysig s) (yput s i Z2x))
  (* 134-136 *)
  | y_w2x s i b : yat s i Z2x -> given (yww s) b -> ystep s (Some (WNot i)) (WRLock b (yrm s) (yrs s) (ysig s) (yput s i YIdle))
  | y_ucall s i : yat s i YIdle -> ystep s (Some (RUnlock i)) (WRLock (yww s) (yrm s) (yrs s) (ysig s) (yput s i T1))
  (* 147-148 *)
  | y_u1 s i : yat s i T1 -> yrm s = true -> ystep s None (WRLock (yww s) false (yrs s) (ysig s) (yput s i T2))
  | y_u1no s i : yat s i T1 -> errors = true -> ystep s None (WRLock (yww s) (yrm s) (yrs s) (ysig s) (yput s i YIdle))
  (* 152: Val is the count before *)
  | y_u2 s i : yat s i T2 -> yrs s < LONG_MAX ->
      ystep s (Some (RPut i)) (WRLock (yww s) (yrm s) (yrs s + 1) (ysig s) (yput s i (T3 (yrs s =? LONG_MAX - 1))))
  | y_u2no s i : yat s i T2 -> LONG_MAX <= yrs s \/ errors = true -> ystep s None (WRLock (yww s) (yrm s) (yrs s) (ysig s) (yput s i T2x))
  (* 154-156 *)
  | y_u2x s i b : yat s i T2x -> given (yrm s) b -> ystep s None (WRLock (yww s) b (yrs s) (ysig s) (yput s i YIdle))
  (* 160-161 *)
  | y_u3 s i : yat s i (T3 false) -> ystep s None (WRLock (yww s) (yrm s) (yrs s) (ysig s) (yput s i T5))
  | y_u3fire s i : yat s i (T3 true) -> ystep s None (WRLock (yww s) (yrm s) (yrs s) true (yput s i T5))
  | y_u3no s i : yat s i (T3 true) -> errors = true -> ystep s None (WRLock (yww s) (yrm s) (yrs s) (ysig s) (yput s i T5))
  (* 171, 164 *)
  | y_u5 s i b : yat s i T5 -> given (yrm s) b -> ystep s None (WRLock (yww s) b (yrs s) (ysig s) (yput s i YIdle))
  | y_vcall s i : yat s i YIdle -> ystep s (Some (WUnlock i)) (WRLock (yww s) (yrm s) (yrs s) (ysig s) (yput s i O1))
  (* 181 *)
  | y_v1 s i b : yat s i O1 -> given (yww s) b -> ystep s None (WRLock b (yrm s) (yrs s) (ysig s) (yput s i YIdle)).

Inductive yrun : wrlock -> list rw_event -> wrlock -> Prop :=
  | yrun_nil s : yrun s [] s
  | yrun_step s tr s1 e s2 : yrun s tr s1 -> ystep s1 e s2 -> yrun s (tr ++ match e with Some x => [x] | None => [] end) s2.
End WinRW.
