(** Model of the timed waits of include/Lintel/PThread.hpp.in and src/PThread.cpp. A struct
    timespec is a pair of seconds and nanoseconds; time_t and long have 64 bits. *)
From Coq Require Import List ZArith Bool.
From Flocq Require Import Core BinarySingleNaN.
From Verif Require Import Common Double64 Clock_Model.
Import ListNotations.
Local Open Scope Z_scope.

Notation timespec := (Z * Z)%type.

(** PThread.hpp.in:333-346, the abstime handed to timedWaitAbs when clock_gettime answered
    [now]. floor(seconds) of a double is itself a double. The addition to tv_sec overflows
    when the sum is not a time_t. *)
Definition timedWait_abstime (now : timespec) (seconds : double) : res timespec :=
  let '(sec, nsec) := now in
  let! _ := invariant (Bleb (of_Z 0) seconds) in
  let! whole := floor_to_unsigned 63 seconds in
  let sec := sec + whole in
  if 2 ^ 63 <=? sec then UB else
  let! part := round_unsigned 63 (dmul (of_Z (10 ^ 9)) (dsub seconds (of_Z whole))) in
  let nsec := nsec + part in
  if 1000 * 1000 * 1000 <=? nsec then
    let sec := sec + 1 in
    if 2 ^ 63 <=? sec then UB else
    let nsec := nsec - 1000 * 1000 * 1000 in
    let! _ := invariant (nsec <? 1000 * 1000 * 1000) in
    Ok (sec, nsec)
  else Ok (sec, nsec).

Definition ETIMEDOUT : Z := 110.
Definition EBUSY : Z := 16.
(** PThread.hpp.in:351-358: [ret] is what pthread_cond_timedwait returned. *)
Definition timedWaitAbs_result (ret : Z) : res bool :=
  let! _ := invariant ((ret =? 0) || (ret =? ETIMEDOUT)) in Ok (ret =? ETIMEDOUT).

(** PThread.cpp:304-326, the pthread_mutex_timedlock for systems that have none. [world]
    lists, turn by turn, what pthread_mutex_trylock returns and the time clock_gettime then
    gives. Result: the return value and the nanoseconds of every sleep. *)
Fixpoint mutex_timedlock (abs_timeout : timespec) (world : list (Z * timespec)) : res (Z * list Z) :=
  match world with
  | [] => Fuel
  | (ret, now) :: world =>
      if ret =? EBUSY then
        if (fst abs_timeout <? fst now) || ((fst now =? fst abs_timeout) && (snd abs_timeout <=? snd now)) then Ok (ETIMEDOUT, [])
        else
          let to_sleep := snd abs_timeout - snd now in
          let to_sleep := if to_sleep <? 0 then to_sleep + 1000 * 1000 * 1000 else to_sleep in
          let to_sleep := if 10 * 1000 * 1000 <? to_sleep then 10 * 1000 * 1000 else to_sleep in
          let! (ret, sleeps) := mutex_timedlock abs_timeout world in
          Ok (ret, to_sleep :: sleeps)
      else Ok (ret, [])
  end.
(** PThread.hpp.in:153-161 *)
Definition timedLock (abs_timeout : timespec) (world : list (Z * timespec)) : res (bool * list Z) :=
  let! (ret, sleeps) := mutex_timedlock abs_timeout world in
  if ret =? 0 then Ok (true, sleeps) else
  let! _ := invariant (ret =? ETIMEDOUT) in Ok (false, sleeps).
