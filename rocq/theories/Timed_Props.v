(** C69: timed waits. *)
From Coq Require Import List ZArith Bool Reals Lra Lia Psatz ZifyBool.
From Flocq Require Import Core BinarySingleNaN.
From Verif Require Import Common Double64 Clock_Model Clock_Proofs Timed_Model Timed_Spec Timed_Proofs.
Import ListNotations.
Local Open Scope Z_scope.

(** A wait of [seconds], any nonnegative double (up to 2^53 seconds since 1970): the time
    handed to the system is normalised, and is now plus [seconds] to within half a
    nanosecond and a rounding error. *)
Theorem C69_deadline : forall now seconds, normal now -> 0 <= fst now -> is_finite seconds = true -> (0 <= B2R seconds)%R ->
  (IZR (fst now) + B2R seconds < IZR (2 ^ 53))%R ->
  exists t, timedWait_abstime now seconds = Ok t /\ normal t /\
    (Rabs (IZR (nanos t - nanos now) - IZR (10 ^ 9) * B2R seconds) <= / 2 + bpow radix2 (-23))%R.
Proof.
  intros now x Hn Hs F P B. destruct (abstime_exact now x Hn Hs F P B) as (t & E & N & D). exists t. split; [exact E|]. split; [exact N|].
  replace (nanos t - nanos now) with (dur (B2R x)) by lia. apply dur_close.
Qed.
Print Assumptions C69_deadline.
(** A whole number of seconds is exact. *)
Theorem C69_whole_seconds : forall now k, normal now -> 0 <= fst now -> 0 <= k -> fst now + k < 2 ^ 53 ->
  timedWait_abstime now (of_Z k) = Ok (fst now + k, snd now).
Proof.
  intros [sec nsec] k Hn Hs Hk B. cbn [fst snd] in *. destruct (of_Z_exact k) as (E & F); [lia|].
  destruct (abstime_exact (sec, nsec) (of_Z k) Hn Hs F) as (t & Et & N & D); [rewrite E; now apply IZR_le|rewrite E, <- plus_IZR; cbn [fst]; now apply IZR_lt|].
  rewrite E, dur_Z in D. rewrite Et. f_equal. destruct t as [a b]. unfold nanos, normal in *. cbn [fst snd] in *. f_equal; lia.
Qed.
Print Assumptions C69_whole_seconds.
(** A longer wait never ends earlier. *)
Theorem C69_monotone : forall now x y t u, normal now -> 0 <= fst now -> is_finite x = true -> is_finite y = true ->
  (0 <= B2R x <= B2R y)%R -> (IZR (fst now) + B2R y < IZR (2 ^ 53))%R ->
  timedWait_abstime now x = Ok t -> timedWait_abstime now y = Ok u -> nanos t <= nanos u.
Proof.
  intros now x y t u Hn Hs Fx Fy [P L] B Et Eu. destruct (abstime_exact now x Hn Hs Fx P ltac:(lra)) as (t' & Et' & _ & Dt). destruct (abstime_exact now y Hn Hs Fy ltac:(lra) B) as (u' & Eu' & _ & Du).
  assert (t' = t) by congruence. assert (u' = u) by congruence. subst. pose proof (dur_mono _ _ L). lia.
Qed.
Print Assumptions C69_monotone.
(** A negative wait is refused. *)
Theorem C69_negative : forall now seconds, is_finite seconds = true -> (B2R seconds < 0)%R -> timedWait_abstime now seconds = Abort.
Proof. exact abstime_negative. Qed.
Print Assumptions C69_negative.
(** timedWaitAbs returns whether the time ran out, and no other error passes unnoticed
    (0 and ETIMEDOUT, which is 110, are what a wait on valid objects returns). *)
Theorem C69_wait_result : forall ret,
  ((ret = 0 \/ ret = 110) -> exists timed_out, timedWaitAbs_result ret = Ok timed_out /\ (timed_out = true <-> ret = 110)) /\
  (ret <> 0 -> ret <> 110 -> timedWaitAbs_result ret = Abort).
Proof.
  intros ret. unfold timedWaitAbs_result, ETIMEDOUT, invariant. split.
  - intros [-> | ->]; cbn; eexists; (split; [reflexivity|]); split; auto; discriminate.
  - intros A B. destruct (Z.eqb_spec ret 0); [contradiction|]. destruct (Z.eqb_spec ret 110); [contradiction|]. reflexivity.
Qed.
Print Assumptions C69_wait_result.
Example C69_half_second : timedWait_abstime (1000, 750000000) (ddiv (of_Z 1) (of_Z 2)) = Ok (1001, 250000000) /\
  timedWait_abstime (1000, 999999999) (ddiv (of_Z 3) (of_Z (2 * 10 ^ 9))) = Ok (1001, 1) /\
  timedWait_abstime (1000, 0) (dsub (of_Z 0) (of_Z 1)) = Abort.
Proof. split; [vm_compute; reflexivity|]. split; vm_compute; reflexivity. Qed.

(** timedLock where the system has no pthread_mutex_timedlock, whatever trylock and the
    clock say: it gives up only once the clock has reached the deadline, takes the mutex at
    the first attempt that succeeds, and no sleep is longer than 10 ms or passes the
    deadline. *)
Theorem C69_timedlock : forall abs world got sleeps, normal abs -> Forall (fun e => normal (snd e)) world ->
  timedLock abs world = Ok (got, sleeps) ->
  exists before r now after, world = before ++ (r, now) :: after /\
    Forall (fun e => fst e = EBUSY /\ nanos (snd e) < nanos abs) before /\
    Forall2 (fun e d => 0 <= d <= 10 ^ 7 /\ nanos (snd e) + d <= nanos abs) before sleeps /\
    (got = true /\ r = 0 \/ got = false /\ (r = ETIMEDOUT \/ r = EBUSY /\ nanos abs <= nanos now)).
Proof.
  intros abs world got sleeps Ha W E. unfold timedLock in E. destruct (mutex_timedlock abs world) as [[ret sl]| | |] eqn:E'; cbn [bind] in E; try discriminate.
  destruct (timedlock_run _ _ _ _ Ha W E') as (before & r & now & after & Ew & _ & Fb & F2 & D). exists before, r, now, after. split; [exact Ew|]. split; [exact Fb|].
  destruct (ret =? 0) eqn:E0; [injection E as <- <-|destruct (ret =? ETIMEDOUT) eqn:E1; cbn [invariant bind] in E; try discriminate; injection E as <- <-]; (split; [exact F2|]).
  - left. split; [reflexivity|]. unfold ETIMEDOUT in *. lia.
  - right. split; [reflexivity|]. destruct D as [(D1 & D2 & D3)|(D1 & D2)]; [right; auto|left; lia].
Qed.
Print Assumptions C69_timedlock.
Example C69_timedlock_run : timedLock (5, 3000000) [(EBUSY, (4, 990000000)); (EBUSY, (4, 999000000)); (EBUSY, (5, 2999999)); (EBUSY, (5, 3000000))] = Ok (false, [10000000; 4000000; 1]) /\
  timedLock (5, 3000000) [(EBUSY, (4, 990000000)); (0, (0, 0))] = Ok (true, [10000000]).
Proof. split; reflexivity. Qed.
(** When the clock and the deadline are at the same nanosecond of different seconds it does
    not sleep at all, however far away the deadline is. *)
Theorem C69_sleep_refuted : forall abs now world got sleeps, normal abs -> normal now -> fst now < fst abs -> snd now = snd abs ->
  timedLock abs ((EBUSY, now) :: world) = Ok (got, sleeps) -> hd 1 sleeps = 0.
Proof.
  intros abs now world got sleeps Ha Hn L En E. unfold timedLock in E. cbn [mutex_timedlock] in E. replace (EBUSY =? EBUSY) with true in E by reflexivity.
  replace ((fst abs <? fst now) || ((fst now =? fst abs) && (snd abs <=? snd now))) with false in E by lia. rewrite En in E. replace (snd abs - snd abs) with 0 in E by lia. cbn in E.
  destruct (mutex_timedlock abs world) as [[ret sl]| | |]; cbn [bind] in E; try discriminate. destruct (ret =? 0); [injection E as <- <-; reflexivity|]. destruct (ret =? ETIMEDOUT); cbn [invariant bind] in E; [injection E as <- <-; reflexivity|discriminate].
Qed.
Print Assumptions C69_sleep_refuted.
Example C69_sleep_refuted_nonvacuous : timedLock (9, 7) [(EBUSY, (1, 7)); (EBUSY, (9, 8))] = Ok (false, [0]).
Proof. reflexivity. Qed.
