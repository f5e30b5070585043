(** Model of the timeouts of sync/sync_util.cpp and sync/sync_readwritelock.cpp and of
    GetUnixMicrosecondTime.  Definitions only. *)
From Verif Require Import Base S_Time.
Open Scope N_scope.

(** ** GetUnixMicrosecondTime *)
(** sync_util.cpp 46-60 and environment_appinfo.cpp 27-42 (the same code), Windows.  [high] and [low]
    are the two halves of the FILETIME; Result is a uint64_t. *)
Definition GetUnixMicrosecondTime_win (high low : N) : N :=
  let Result := high * W32 + low in
  (Result / 10 + W64 - 11644473600000000) mod W64.

(** sync_util.cpp 88-95 and environment_appinfo.cpp 54-61 (the same code), POSIX.  [now] is what
    gettimeofday stores, [None] if it fails. *)
Definition GetUnixMicrosecondTime_posix (now : option (N * N)) : N :=
  match now with
  | None => 0
  | Some (tv_sec, tv_usec) => (tv_sec mod W64 * 1000000 + tv_usec mod W64) mod W64
  end.

(** ** The deadline of a timed wait *)
(** time_t and long have [bits] bits.  A sum that does not fit is undefined (with 32 bits it would
    be implementation-defined instead). *)
Definition fits (bits : Z) (z : Z) : res Z := if (- 2 ^ (bits - 1) <=? z)%Z && (z <? 2 ^ (bits - 1))%Z then Ok z else UB.
(** sync_util.cpp 415-418 (semaphores) and 566-569 (events).  Wait is a uint32_t, and so is
    (Wait % 1000) * 1000000; [/] and [%] on tv_nsec are C's. *)
Definition deadline (bits : Z) (sec nsec : Z) (Wait : N) : res (Z * Z) :=
  let* sec := fits bits (sec + Z.of_N (Wait / 1000)) in
  let* nsec := fits bits (nsec + Z.of_N ((Wait mod 1000 * 1000000) mod W32)) in
  let* sec := fits bits (sec + Z.quot nsec 1000000000) in
  Ok (sec, Z.rem nsec 1000000000).

(** sync_util.cpp 420-433, 573-590: the loop around pthread_cond_timedwait.  Each wake-up is the time of
    return, whether the result was 0, and the semaphore's count (or the event's state) then. *)
Fixpoint timed_loop (wakes : list (Z * bool * bool)) : res (bool * Z) :=
  match wakes with
  | [] => Fuel
  | (t, zero, there) :: rest =>
      if negb zero then Ok (false, t)
      else if there then Ok (true, t)
      else timed_loop rest
  end.

(** ** The reader-writer lock's remaining time *)
(** What a call meets: what GetUnixMicrosecondTime returns when the call has lasted that many
    microseconds, what its k-th wait gives for a timeout, how long the call runs between its k-th
    wait and the next reading of the clock, whether the event can be reset. *)
Record env := Env { clock : N -> N; wait : nat -> N -> answer; between : nat -> N; reset : bool }.

(** What is taken and given back: the writers' semaphore, the readers' mutex, the readers'
    semaphore (Windows only). *)
Inductive part := WW | RM | RS.
Inductive move := Took (p : part) | Gave (p : part).
(** the result, the time blocked, what was taken and given back in order *)
Record outcome := Outcome { result : bool; total : N; moves : list move }.

(** 75, 82, 91, 124, 131, 265, 271, 305, 311: "current time in milliseconds" *)
Definition stamp (E : env) (Wait e : N) : N := if Wait =? INFINITE then 0 else clock E e / 1000000.
(** 83, 92, 132, 272, 312: Wait < CurrTime - StartTime, Wait - (CurrTime - StartTime), in uint64_t;
    the second becomes a uint32_t *)
Definition left_over (Wait start cur : N) : option N :=
  let d := (cur + W64 - start) mod W64 in
  if Wait <? d then None else Some ((Wait - d) mod W32).

(** 258-296 *)
Definition ReadLock_posix (E : env) (Wait : N) : outcome :=
  let start := stamp E Wait 0 in
  let a1 := wait E 0 Wait in
  if negb (granted a1) then Outcome false (blocked a1) []
  else
    match left_over Wait start (stamp E Wait (blocked a1 + between E 0)) with
    | None => Outcome false (blocked a1) [Took WW; Gave WW]
    | Some w =>
        let a2 := wait E 1 w in
        let t := blocked a1 + blocked a2 in
        if negb (granted a2) then Outcome false t [Took WW; Gave WW]
        else if negb (reset E) then Outcome false t [Took WW; Took RM; Gave RM; Gave WW]
        else Outcome true t [Took WW; Took RM; Gave RM; Gave WW]
    end.

(** 298-320, and 117-140 on Windows, which differs only in the names of the calls *)
Definition WriteLock (E : env) (Wait : N) : outcome :=
  let start := stamp E Wait 0 in
  let a1 := wait E 0 Wait in
  if negb (granted a1) then Outcome false (blocked a1) []
  else
    match left_over Wait start (stamp E Wait (blocked a1 + between E 0)) with
    | None => Outcome false (blocked a1) [Took WW; Gave WW]
    | Some w =>
        let a2 := wait E 1 w in
        let t := blocked a1 + blocked a2 in
        if negb (granted a2) then Outcome false t [Took WW; Gave WW]
        else Outcome true t [Took WW]
    end.

(** 68-115 *)
Definition ReadLock_win (E : env) (Wait : N) : outcome :=
  let start := stamp E Wait 0 in
  let a1 := wait E 0 Wait in
  if negb (granted a1) then Outcome false (blocked a1) []
  else
    let e1 := blocked a1 + between E 0 in
    match left_over Wait start (stamp E Wait e1) with
    | None => Outcome false (blocked a1) [Took WW; Gave WW]
    | Some w1 =>
        let a2 := wait E 1 w1 in
        let t2 := blocked a1 + blocked a2 in
        if negb (granted a2) then Outcome false t2 [Took WW; Gave WW]
        else
          match left_over Wait start (stamp E Wait (e1 + blocked a2 + between E 1)) with
          | None => Outcome false t2 [Took WW; Took RM; Gave RM; Gave WW]
          | Some w2 =>
              let a3 := wait E 2 w2 in
              let t3 := t2 + blocked a3 in
              if negb (granted a3) then Outcome false t3 [Took WW; Took RM; Gave RM; Gave WW]
              else if negb (reset E) then Outcome false t3 [Took WW; Took RM; Took RS; Gave RS; Gave RM; Gave WW]
              else Outcome true t3 [Took WW; Took RM; Took RS; Gave RM; Gave WW]
          end
    end.
