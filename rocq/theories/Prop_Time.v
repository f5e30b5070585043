(** C93, C94 and C95: deadlines, the time a reader-writer lock waits, the microsecond clock. *)
From Verif Require Import Base S_Time M_Time.
Open Scope N_scope.

(** ** C95 *)
Definition year_val : usec_1601_1970 = 11644473600000000 := eq_refl.

(** Windows: whole microseconds since 1970, from 1970 on. *)
Theorem C95_windows high low : high < 2 ^ 32 -> low < 2 ^ 32 -> usec_1601_1970 * 10 <= high * 2 ^ 32 + low ->
  let ticks := high * 2 ^ 32 + low - usec_1601_1970 * 10 in
  GetUnixMicrosecondTime_win high low * 10 <= ticks < (GetUnixMicrosecondTime_win high low + 1) * 10.
Proof.
  intros Hh Hl E. cbv zeta. rewrite year_val in *. unfold GetUnixMicrosecondTime_win, W32, W64. cbv zeta.
  set (r := high * 2 ^ 32 + low) in *. assert (Hr : r < 2 ^ 64) by (subst r; change (2 ^ 64) with (2 ^ 32 * 2 ^ 32); nia). clearbody r.
  pose proof (N.div_mod r 10 ltac:(lia)) as D. pose proof (N.mod_lt r 10 ltac:(lia)) as M. change (2 ^ 64) with 18446744073709551616 in *.
  assert (Q : 11644473600000000 <= r / 10) by lia. clear Hh Hl. set (q := r / 10) in *. set (m := r mod 10) in *. clearbody q m.
  assert (X : q + 18446744073709551616 - 11644473600000000 = q - 11644473600000000 + 1 * 18446744073709551616) by lia. rewrite X.
  rewrite N.mod_add by lia. rewrite N.mod_small by lia. lia.
Qed.

(** Before 1970 the result is near 2^64: it does not stand for a time. *)
Theorem C95_before high low : high < 2 ^ 32 -> low < 2 ^ 32 -> high * 2 ^ 32 + low < usec_1601_1970 * 10 ->
  2 ^ 64 - usec_1601_1970 <= GetUnixMicrosecondTime_win high low.
Proof.
  intros Hh Hl E. rewrite year_val in *. unfold GetUnixMicrosecondTime_win, W32, W64. cbv zeta. set (r := high * 2 ^ 32 + low) in *.
  pose proof (N.div_mod r 10 ltac:(lia)) as D. pose proof (N.mod_lt r 10 ltac:(lia)) as M. change (2 ^ 64) with 18446744073709551616 in *.
  clearbody r. clear Hh Hl. set (q := r / 10) in *. set (m := r mod 10) in *. clearbody q m.
  rewrite N.mod_small by lia. lia.
Qed.

(** POSIX: the same, as long as the result fits (about 584 thousand years); 0 without a clock. *)
Theorem C95_posix sec usec : usec < 1000000 -> sec * 1000000 + usec < 2 ^ 64 ->
  GetUnixMicrosecondTime_posix (Some (sec, usec)) = sec * 1000000 + usec /\ GetUnixMicrosecondTime_posix None = 0.
Proof.
  intros Hu Hs. split; [|reflexivity]. unfold GetUnixMicrosecondTime_posix, W64. rewrite (N.mod_small sec) by lia. rewrite (N.mod_small usec) by lia. apply N.mod_small. exact Hs.
Qed.

(** 16 November 2026, 12:00:00.5 UTC on both systems. *)
Example C95_ex : GetUnixMicrosecondTime_win (134389800005000000 / 2 ^ 32) (134389800005000000 mod 2 ^ 32) = 1794506400500000 /\
  GetUnixMicrosecondTime_posix (Some (1794506400, 500000)) = 1794506400500000 /\
  GetUnixMicrosecondTime_win 0 0 = 18435099600109551616.
Proof. vm_compute. auto. Qed.

(** ** C93 *)
Lemma fits_ok bits z : (bits = 32 \/ bits = 64)%Z -> (0 <= z < 2 ^ (bits - 1))%Z -> fits bits z = Ok z.
Proof.
  intros Hb Hz. unfold fits. destruct (Z.leb_spec (- 2 ^ (bits - 1)) z); [|lia]. destruct (Z.ltb_spec z (2 ^ (bits - 1))); [reflexivity|lia].
Qed.

(** The deadline is exactly Wait milliseconds after now, in normal form. *)
Theorem C93_deadline bits sec nsec Wait : (bits = 32 \/ bits = 64)%Z -> normal_nsec nsec -> (0 <= sec)%Z -> (sec + 4294968 < 2 ^ (bits - 1))%Z -> Wait < 2 ^ 32 ->
  exists s ns, deadline bits sec nsec Wait = Ok (s, ns) /\ normal_nsec ns /\ instant s ns = (instant sec nsec + Z.of_N Wait * 1000000)%Z.
Proof.
  intros Hb Hn Hs Hf Hw. unfold normal_nsec in *. unfold deadline, instant.
  assert (P : (2147483648 <= 2 ^ (bits - 1))%Z) by (destruct Hb as [-> | ->]; vm_compute; discriminate).
  pose proof (N.div_mod Wait 1000 ltac:(lia)) as D. pose proof (N.mod_lt Wait 1000 ltac:(lia)) as M. set (q := Wait / 1000) in *. set (r := Wait mod 1000) in *.
  assert (Hq : q <= 4294967) by (change (2 ^ 32) with 4294967296 in Hw; lia).
  rewrite (N.mod_small (r * 1000000)) by (unfold W32; change (2 ^ 32) with 4294967296; lia).
  rewrite fits_ok by (try assumption; lia). cbn [bind].
  rewrite fits_ok by (try assumption; lia). cbn [bind].
  set (n2 := (nsec + Z.of_N (r * 1000000))%Z) in *.
  pose proof (Z.quot_rem n2 1000000000 ltac:(lia)) as QR. pose proof (Z.rem_bound_pos n2 1000000000 ltac:(lia) ltac:(lia)) as RB.
  assert (Hq2 : (0 <= Z.quot n2 1000000000 <= 1)%Z) by lia.
  rewrite fits_ok by (try assumption; lia). cbn [bind].
  eexists. eexists. split; [reflexivity|]. split; [lia|]. lia.
Qed.

(** What pthread_cond_timedwait does: it comes back by the deadline [d], with a nonzero result only
    when the deadline has come. *)
Definition on_time (d : Z) (w : Z * bool * bool) : Prop := let '(t, zero, there) := w in (t <= d)%Z /\ (zero = false -> t = d).

(** However often the wait is woken in vain, it ends by the deadline; it gives up only at the
    deadline, and it succeeds only when there is something to take. *)
Theorem C93_waits bits sec nsec Wait wakes : (bits = 32 \/ bits = 64)%Z -> normal_nsec nsec -> (0 <= sec)%Z -> (sec + 4294968 < 2 ^ (bits - 1))%Z -> Wait < 2 ^ 32 ->
  let d := (instant sec nsec + Z.of_N Wait * 1000000)%Z in
  forall s ns, deadline bits sec nsec Wait = Ok (s, ns) -> Forall (on_time (instant s ns)) wakes ->
  forall b t, timed_loop wakes = Ok (b, t) -> (t <= d)%Z /\ (b = false -> t = d) /\ (b = true -> In (t, true, true) wakes).
Proof.
  intros Hb Hn Hs Hf Hw d s ns E. destruct (C93_deadline bits sec nsec Wait Hb Hn Hs Hf Hw) as (s' & ns' & E' & _ & I). rewrite E in E'. injection E' as <- <-. fold d in I. rewrite I. clear I E.
  intros O b t. induction wakes as [|[[t' zero] there] wakes IH]; [discriminate|]. cbn [timed_loop]. inversion O as [|? ? O1 O2]; subst. cbn [on_time] in O1. destruct O1 as (O1 & O3).
  destruct zero; cbn [negb].
  - destruct there.
    + intro X. injection X as <- <-. repeat split; [exact O1|discriminate|]. intros _. left. reflexivity.
    + intro X. destruct (IH O2 X) as (A & B & C). repeat split; [exact A|exact B|]. intro Y. right. exact (C Y).
  - intro X. injection X as <- <-. repeat split; [exact O1|intros _; exact (O3 eq_refl)|discriminate].
Qed.

(** With a wake-up from any of the waits, the loop ends. *)
Theorem C93_ends wakes t : In (t, false, false) wakes \/ In (t, false, true) wakes \/ In (t, true, true) wakes -> exists b u, timed_loop wakes = Ok (b, u).
Proof.
  induction wakes as [|[[u zero] there] wakes IH]; intro H; [destruct H as [[]|[[]|[]]]|]. cbn [timed_loop].
  destruct zero; cbn [negb]; [|eauto]. destruct there; [eauto|]. apply IH. destruct H as [[H|H]|[[H|H]|[H|H]]]; try discriminate; auto.
Qed.

(** 1999 ms after 10.9 s, with a wake-up in vain, on a 32-bit system; the 32-bit clock of 2038. *)
Example C93_ex : deadline 32 10 900000000 1999 = Ok (12, 899000000)%Z /\
  timed_loop [(11000000000, true, false); (12899000000, false, false)]%Z = Ok (false, 12899000000)%Z /\
  deadline 32 2147483647 900000000 1999 = UB.
Proof. vm_compute. auto. Qed.

(** ** C94 *)
(** The clock is right: it started at [t0] and counts microseconds. *)
Definition honest (E : env) (t0 : N) : Prop := forall e, clock E e = t0 + e.
(** Every wait obeys its timeout. *)
Definition lawful (E : env) : Prop := forall k w, w < 2 ^ 32 -> obeys w (wait E k w).
Definition calls : list (env -> N -> outcome) := [ReadLock_posix; WriteLock; ReadLock_win].

Lemma left_le Wait start cur w : Wait < 2 ^ 32 -> left_over Wait start cur = Some w -> w <= Wait.
Proof.
  unfold left_over. cbv zeta. intros H. generalize ((cur + W64 - start) mod W64). intro d. destruct (N.ltb_spec Wait d); [discriminate|]. intro X. injection X as <-.
  rewrite N.mod_small by (unfold W32; lia). lia.
Qed.
Lemma left_small Wait start cur w : Wait < INFINITE -> left_over Wait start cur = Some w -> w < INFINITE.
Proof. intros H X. pose proof (left_le Wait start cur w ltac:(unfold INFINITE in H; change (2 ^ 32) with 4294967296; lia) X). lia. Qed.
Lemma obeys_le w a W : obeys w a -> w <= W -> W < INFINITE -> blocked a <= W * 1000.
Proof. unfold obeys. intros H L I. destruct (N.eqb_spec w INFINITE); [lia|]. destruct H as [H _]. lia. Qed.

(** All that can be said about the waiting time: the two waits of a writer and of a reader together
    take at most twice the timeout (three waits, three times, for readers on Windows). *)
Theorem C94_bounded E Wait : lawful E -> Wait < INFINITE ->
  total (ReadLock_posix E Wait) <= 2 * (Wait * 1000) /\ total (WriteLock E Wait) <= 2 * (Wait * 1000) /\ total (ReadLock_win E Wait) <= 3 * (Wait * 1000).
Proof.
  intros L HW. assert (B : forall k w, w <= Wait -> blocked (wait E k w) <= Wait * 1000).
  { intros k w Hw. apply (obeys_le w _ Wait); [apply L; unfold INFINITE in HW; change (2 ^ 32) with 4294967296; lia|exact Hw|exact HW]. }
  assert (HW2 : Wait < 2 ^ 32) by (unfold INFINITE in HW; change (2 ^ 32) with 4294967296; lia).
  pose proof (B O Wait ltac:(lia)) as B0. unfold ReadLock_posix, WriteLock, ReadLock_win. cbv zeta.
  destruct (granted (wait E 0 Wait)); cbn [negb]; [|cbn [total]; lia].
  destruct (left_over Wait (stamp E Wait 0) (stamp E Wait (blocked (wait E 0 Wait) + between E 0))) as [w|] eqn:El; [|cbn [total]; lia].
  pose proof (B 1%nat w (left_le _ _ _ _ HW2 El)) as B1.
  destruct (granted (wait E 1 w)); cbn [negb]; [|cbn [total]; lia]. split; [|split].
  - destruct (reset E); cbn [negb total]; lia.
  - cbn [total]. lia.
  - destruct (left_over Wait _ _) as [w2|] eqn:El2 in |- *; [|cbn [total]; lia].
    pose proof (B 2%nat w2 (left_le _ _ _ _ HW2 El2)) as B2. destruct (granted (wait E 2 w2)); cbn [negb]; [|cbn [total]; lia]. destruct (reset E); cbn [negb total]; lia.
Qed.

(** What a call that fails took, it gave back; a reader gives back both mutexes anyway (and keeps
    one unit of the readers' semaphore on Windows), a writer keeps the writers' semaphore. *)
Fixpoint held (p : part) (ms : list move) : Z :=
  match ms with
  | [] => 0
  | Took q :: r => (match p, q with WW, WW | RM, RM | RS, RS => 1 | _, _ => 0 end + held p r)%Z
  | Gave q :: r => (match p, q with WW, WW | RM, RM | RS, RS => -1 | _, _ => 0 end + held p r)%Z
  end.
Theorem C94_gives_back E Wait p :
  held p (moves (ReadLock_posix E Wait)) = 0%Z /\
  held p (moves (WriteLock E Wait)) = (if result (WriteLock E Wait) then match p with WW => 1 | _ => 0 end else 0)%Z /\
  held p (moves (ReadLock_win E Wait)) = (if result (ReadLock_win E Wait) then match p with RS => 1 | _ => 0 end else 0)%Z.
Proof.
  unfold ReadLock_posix, WriteLock, ReadLock_win. cbv zeta.
  repeat split; repeat match goal with |- context [left_over ?a ?b ?c] => destruct (left_over a b c) | |- context [granted ?a] => destruct (granted a); cbn [negb] | |- context [reset ?a] => destruct (reset a); cbn [negb] end; destruct p; reflexivity.
Qed.

(** Without a timeout each wait is without a timeout, so the lock is obtained. *)
Theorem C94_forever E : lawful E -> reset E = true -> forall f, In f calls -> result (f E INFINITE) = true.
Proof.
  intros L R. assert (G : forall k, granted (wait E k INFINITE) = true).
  { intro k. specialize (L k INFINITE ltac:(unfold INFINITE; change (2 ^ 32) with 4294967296; lia)). unfold obeys in L. rewrite N.eqb_refl in L. exact L. }
  assert (S0 : forall e, stamp E INFINITE e = 0) by (intro e; unfold stamp; rewrite N.eqb_refl; reflexivity).
  assert (LO : left_over INFINITE 0 0 = Some INFINITE) by reflexivity.
  intros f [<-|[<-|[<-|[]]]]; unfold ReadLock_posix, WriteLock, ReadLock_win; cbv zeta; rewrite !G, !S0; cbn [negb]; rewrite LO, !G; cbn [negb]; rewrite ?S0, ?LO, ?G, ?R; reflexivity.
Qed.

Lemma secs t0 a b : a <= b -> b < 1000000 -> (t0 + a) / 1000000 <= (t0 + b) / 1000000 <= (t0 + 0) / 1000000 + 1.
Proof.
  intros H1 H2. rewrite N.add_0_r. split; [apply N.div_le_mono; lia|]. rewrite <- (N.div_add t0 1 1000000) by lia. apply N.div_le_mono; lia.
Qed.
Lemma left_free Wait t0 e : 0 < Wait -> Wait < INFINITE -> e < 1000000 -> t0 < 2 ^ 63 -> exists w, left_over Wait ((t0 + 0) / 1000000) ((t0 + e) / 1000000) = Some w /\ w < 2 ^ 32.
Proof.
  intros HW HI He Ht. destruct (secs t0 0 e ltac:(lia) He) as [A B]. rewrite N.add_0_r in *. unfold left_over. cbv zeta.
  assert (Q : t0 / 1000000 <= t0) by (apply N.div_le_upper_bound; lia).
  set (s := t0 / 1000000) in *. set (c := (t0 + e) / 1000000) in *. unfold W64, INFINITE in *. change (2 ^ 64) with 18446744073709551616. change (2 ^ 63) with 9223372036854775808 in Ht.
  replace (c + 18446744073709551616 - s) with (c - s + 1 * 18446744073709551616) by lia. rewrite N.mod_add by lia. rewrite N.mod_small by lia.
  destruct (N.ltb_spec Wait (c - s)); [lia|]. eexists. split; [reflexivity|]. apply N.mod_lt. unfold W32. lia.
Qed.

(** A lock nobody wants is obtained by a call with a timeout of at least a millisecond that is not
    held up for a second. *)
Theorem C94_free E t0 Wait : honest E t0 -> t0 < 2 ^ 63 -> 0 < Wait < INFINITE -> (forall k w, free (wait E k w)) -> between E 0 + between E 1 < 1000000 -> reset E = true ->
  forall f, In f calls -> result (f E Wait) = true /\ total (f E Wait) = 0.
Proof.
  intros H Ht [W0 WI] F B R.
  assert (St : forall e, stamp E Wait e = (t0 + e) / 1000000). { intro e. unfold stamp. destruct (N.eqb_spec Wait INFINITE); [lia|]. rewrite H. reflexivity. }
  assert (G : forall k w, granted (wait E k w) = true) by (intros; apply F). assert (Z : forall k w, blocked (wait E k w) = 0) by (intros; apply F).
  destruct (left_free Wait t0 (between E 0) W0 WI ltac:(lia) Ht) as (w1 & E1 & _).
  destruct (left_free Wait t0 (between E 0 + between E 1) W0 WI ltac:(lia) Ht) as (w2 & E2 & _).
  rewrite N.add_0_r in E1, E2.
  intros f [<-|[<-|[<-|[]]]]; unfold ReadLock_posix, WriteLock, ReadLock_win; cbv zeta; rewrite ?St, ?G, ?Z; cbn [negb]; rewrite ?N.add_0_l, ?N.add_0_r, E1; rewrite ?G, ?Z; cbn [negb]; rewrite ?St, ?N.add_0_l, ?N.add_0_r, ?E2, ?G, ?Z, ?R; cbn [negb result total]; auto.
Qed.

(** The timeout is not kept: for every timeout from a millisecond, each call can block for almost
    twice as long with a right clock, and then succeed. *)
Definition late : env := Env (fun e => e) (fun k w => Answer true (if (k <=? 1)%nat then w * 1000 else 0)) (fun _ => 0) true.
Lemma late_lawful : lawful late.
Proof. intros k w H. unfold obeys. destruct (N.eqb_spec w INFINITE); [reflexivity|]. cbn [wait late granted blocked]. destruct (k <=? 1)%nat; split; try lia; discriminate. Qed.
Theorem C94_refuted Wait : 0 < Wait < INFINITE -> exists E t0, honest E t0 /\ lawful E /\
  forall f, In f calls -> result (f E Wait) = true /\ total (f E Wait) = (Wait + (Wait - Wait / 1000)) * 1000 /\ Wait * 1000 < total (f E Wait).
Proof.
  intros [H0 HI]. exists late, 0. split; [intro e; reflexivity|]. split; [exact late_lawful|].
  assert (D : Wait / 1000 * 1000 <= Wait) by (rewrite N.mul_comm; apply N.mul_div_le; lia).
  assert (P : 0 < Wait - Wait / 1000) by lia.
  assert (St : forall e, stamp late Wait e = e / 1000000). { intro e. unfold stamp. destruct (N.eqb_spec Wait INFINITE); [lia|]. reflexivity. }
  assert (Q : forall a, a * 1000 / 1000000 = a / 1000). { intro a. replace 1000000 with (1000 * 1000) by reflexivity. rewrite <- N.div_div by lia. rewrite N.div_mul by lia. reflexivity. }
  assert (LO : forall c, c <= Wait -> left_over Wait 0 c = Some (Wait - c)).
  { intros c Hc. unfold left_over. cbv zeta. unfold INFINITE in HI. rewrite N.sub_0_r. unfold W64. change (2 ^ 64) with 18446744073709551616. replace (c + 18446744073709551616) with (c + 1 * 18446744073709551616) by lia. rewrite N.mod_add by lia. rewrite N.mod_small by lia.
    destruct (N.ltb_spec Wait c); [lia|]. rewrite N.mod_small; [reflexivity|]. unfold W32. change (2 ^ 32) with 4294967296. lia. }
  assert (A0 : forall w, wait late 0 w = Answer true (w * 1000)) by reflexivity. assert (A1 : forall w, wait late 1 w = Answer true (w * 1000)) by reflexivity. assert (A2 : forall w, wait late 2 w = Answer true 0) by reflexivity.
  assert (B : forall k, between late k = 0) by reflexivity. assert (R : reset late = true) by reflexivity.
  assert (D2 : (Wait + (Wait - Wait / 1000)) / 1000 <= Wait). { apply N.div_le_upper_bound; lia. }
  intros f [<-|[<-|[<-|[]]]]; unfold ReadLock_posix, WriteLock, ReadLock_win; cbv zeta; rewrite !St, ?A0, ?A1; cbn [granted blocked negb]; rewrite ?B, ?N.add_0_r, Q; change (0 / 1000000) with 0; rewrite (LO (Wait / 1000)) by lia; rewrite ?A1; cbn [granted blocked negb].
  - rewrite R. cbn [negb result total]. repeat split; lia.
  - cbn [result total]. repeat split; lia.
  - rewrite ?St, ?N.add_0_r. rewrite <- N.mul_add_distr_r. rewrite Q, LO by exact D2. rewrite A2. cbn [granted blocked negb]. rewrite R. cbn [negb result total]. repeat split; lia.
Qed.

(** With a timeout of 0 a free lock is refused when the second changes during the call. *)
Theorem C94_try_refuted : exists E t0, honest E t0 /\ (forall k w, free (wait E k w)) /\ between E 0 = 1 /\ reset E = true /\
  forall f, In f calls -> result (f E 0) = false.
Proof.
  exists (Env (fun e => 1794506400999999 + e) (fun _ _ => Answer true 0) (fun _ => 1) true), 1794506400999999.
  split; [intro e; reflexivity|]. split; [intros k w; split; reflexivity|]. split; [reflexivity|]. split; [reflexivity|]. intros f [<-|[<-|[<-|[]]]]; vm_compute; reflexivity.
Qed.

(** Setting the clock back by a second makes a call with a timeout of a minute fail at once,
    although the lock is free. *)
Theorem C94_clock_refuted : exists E, (forall k w, free (wait E k w)) /\ reset E = true /\
  (forall e, clock E e = if e =? 0 then 1794506400000000 else 1794506400000000 - 1000000 + e) /\
  forall f, In f calls -> result (f E 60000) = false.
Proof.
  exists (Env (fun e => if e =? 0 then 1794506400000000 else 1794506400000000 - 1000000 + e) (fun _ _ => Answer true 0) (fun _ => 1) true).
  split; [intros k w; split; reflexivity|]. split; [reflexivity|]. split; [intro e; reflexivity|]. intros f [<-|[<-|[<-|[]]]]; vm_compute; reflexivity.
Qed.

(** 1.5 s: the writer waits 2.999 s. *)
Example C94_ex : total (WriteLock late 1500) = 2999000 /\ result (WriteLock late 1500) = true /\ total (ReadLock_win late 1500) = 2999000.
Proof. vm_compute. auto. Qed.

Print Assumptions C93_deadline. Print Assumptions C93_waits. Print Assumptions C93_ends.
Print Assumptions C94_bounded. Print Assumptions C94_gives_back. Print Assumptions C94_forever. Print Assumptions C94_free. Print Assumptions C94_refuted. Print Assumptions C94_try_refuted. Print Assumptions C94_clock_refuted.
Print Assumptions C95_windows. Print Assumptions C95_before. Print Assumptions C95_posix.
