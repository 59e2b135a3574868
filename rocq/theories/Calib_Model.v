(** Model of the measuring loop of Clock::calibrateClock, src/Clock.cpp:304-377, over exact
    arithmetic. The readings of the cycle counter and of the time of day are a script; a
    loop that asks for more than the script holds is Fuel. The test of the confidence
    interval (lines 358 and 375) is a parameter, a predicate of the measurements averaged.
    The pauses (lines 331-339) and the log messages are not modelled. *)
From Coq Require Import List Arith ZArith QArith Bool.
From Verif Require Import Common Arith Stats_Model.
Import ListNotations.
Local Open Scope nat_scope.

Definition w64 : Z := (2 ^ 64)%Z.
(** What is read for one measurement: cycles_a, tod_start, cycles_b, the readings of the
    waiting loop, tod_end and cycles_d, Clock.cpp:310-320 *)
Record reading := Reading { rd_a : Z; rd_start : Z; rd_b : Z; rd_wait : list Z; rd_end : Z; rd_d : Z }.

(** The waiting loop, lines 314-317: the value of cycles_c *)
Fixpoint wait_cycles (a stop c : Z) (more : list Z) : res Z :=
  if ((a <? c) && (c <? stop))%Z then
    match more with
    | [] => Fuel
    | c' :: more => wait_cycles a stop c' more
    end
  else Ok c.
(** One measurement, lines 310-348: None if it is useless. TfracToDouble divides by 2^32. *)
Definition measure (target : Z) (r : reading) : res (option xnum) :=
  let stop := ((rd_a r + target) mod w64)%Z in
  let! c := wait_cycles (rd_a r) stop (rd_b r) (rd_wait r) in
  if ((c <=? rd_a r) || (10000 <? (c - stop) mod w64))%Z then Ok None
  else
    let cycles_start := (((rd_a r + rd_b r) mod w64) / 2)%Z in
    let cycles_end := (((c + rd_d r) mod w64) / 2)%Z in
    let elapsed_cycles := ((cycles_end - cycles_start) mod w64)%Z in
    let elapsed_seconds := (inject_Z ((rd_end r - rd_start r) mod w64) / inject_Z 4294967296)%Q in
    Ok (Some (xdiv (Fin (inject_Z elapsed_cycles)) (Fin (1000000 * elapsed_seconds)))).

(** std::sort *)
Fixpoint insert (x : xnum) (l : list xnum) : list xnum :=
  match l with
  | [] => [x]
  | y :: r => if xlt y x then y :: insert x r else x :: l
  end.
Fixpoint sort (l : list xnum) : list xnum := match l with [] => [] | x :: r => insert x (sort r) end.
(** The loop of lines 352-356: the measurements averaged; size * 0.25 and size * 0.75 are
    exact and cut off *)
Definition truncated (ms : list xnum) : list xnum :=
  let lo := length ms / 4 in let hi := 3 * length ms / 4 in
  firstn (hi - lo) (skipn lo ms).
Definition mean_of (l : list xnum) : xnum := st_mean exact (fold_left (st_add exact) l (st_new exact)).

Section M.
Variable confident : list xnum -> bool.      (* conf95() < mean() * max_conf95_rel *)
Variable target : Z.                         (* target_cycles *)

(** What a try leaves: the readings not used, measurements, truncated_mean (as the list of
    what was added) and the number of messages appended to errors *)
Record tried := Tried { t_rest : list reading; t_ms : list xnum; t_trunc : list xnum; t_errors : nat }.

(** while (true), lines 309-364 *)
Fixpoint try_loop (script : list reading) (ms : list xnum) (fail_count : nat) (tm : list xnum) (errors : nat) : res tried :=
  match script with
  | [] => Fuel
  | r :: rest =>
    let! m := measure target r in
    let fails := match m with None => S fail_count | Some _ => fail_count end in
    if (match m with None => true | _ => false end) && (128 <? fails) then Ok (Tried rest ms tm (S errors))
    else
      let ms := match m with None => ms | Some x => ms ++ [x] end in
      let enough := 40 <=? length ms in
      let ms := if enough then sort ms else ms in
      let tm := if enough then truncated ms else tm in
      if enough && confident tm then Ok (Tried rest ms tm errors)
      else try_loop rest ms fails tm (if 400 <=? length ms then S errors else errors)
  end.
(** for (tries = 0; tries < 10; ++tries), lines 305-377: the argument of setClockRate *)
Fixpoint all_tries (tries : nat) (script : list reading) (tm : list xnum) (errors : nat) : res (option (list xnum)) :=
  match tries with
  | O => Ok None
  | S n =>
    let! t := try_loop script [] 0 tm errors in
    if length (t_ms t) <? 40 then all_tries n (t_rest t) (t_trunc t) (t_errors t)
    else if confident (t_trunc t) then Ok (Some (t_trunc t))
    else all_tries n (t_rest t) (t_trunc t) (t_errors t)
  end.
(** calibrateClock from line 297 on, with the checks of setClockRate (lines 267-269) and of
    line 381; max_measure is max_recalibrate_measure_time. The rate. *)
Definition calibrate (max_measure : Z) (script : list reading) : res xnum :=
  let! t := all_tries 10 script [] 0 in
  match t with
  | None => Abort
  | Some tm =>
    let rate := mean_of tm in
    let! _ := invariant (xlt (Fin (inject_Z max_measure)) (xmul (Fin 100) rate)) in
    let! _ := invariant (xlt (Fin 200) rate) in
    Ok rate
  end.
End M.
