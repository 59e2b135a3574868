(** Model of the cycle-counter clock of src/Clock.cpp and include/Lintel/Clock.hpp: choosing how to
    treat frequency scaling, calibrating, making a Clock, setting its recalibration interval and
    asking it for the time. Doubles are IEEE doubles, uint64_t arithmetic is modulo 2^64. What the
    machine answers (the cycle counter and gettimeofday) is an argument. The loops that measure
    (Clock.cpp:177-244 and 306-377) are not modelled: what they measured is an argument too. *)
From Coq Require Import List ZArith Bool.
From Flocq Require Import Core BinarySingleNaN.
From Verif Require Import Common Double64.
Import ListNotations.
Local Open Scope Z_scope.

(** enum AllowUnsafeFreqScalingOpt, Clock.hpp:290-297 *)
Inductive freq_mode := ModeYes | ModeWarnFast | ModeWarnSlow | ModeSlow | ModeNo | ModeUseTod.
Definition is_use_tod (m : freq_mode) : bool := match m with ModeUseTod => true | _ => false end.
Definition is_yes (m : freq_mode) : bool := match m with ModeYes => true | _ => false end.
Definition is_no (m : freq_mode) : bool := match m with ModeNo => true | _ => false end.
Definition mode_eqb (a b : freq_mode) : bool :=
  match a, b with
  | ModeYes, ModeYes | ModeWarnFast, ModeWarnFast | ModeWarnSlow, ModeWarnSlow
  | ModeSlow, ModeSlow | ModeNo, ModeNo | ModeUseTod, ModeUseTod => true
  | _, _ => false
  end.

Definition minus_inf : double := B754_infinity true.
(** The static variables, Clock.cpp:37-44. *)
Record globals := Globals {
  clock_rate : double;   (* MHz *)
  inverse_clock_rate_tfrac : double;
  max_recalibrate_measure_time : Z;
  mode : freq_mode;
  may_scale : bool }.
Definition globals0 : globals := Globals minus_inf minus_inf 0 ModeNo true.

(** Clock.cpp:131-139; the warning is not modelled *)
Definition allowUnsafeFrequencyScaling (m : freq_mode) (g : globals) : globals :=
  if Beqb (clock_rate g) minus_inf || mode_eqb m (mode g)
  then Globals (clock_rate g) (inverse_clock_rate_tfrac g) (max_recalibrate_measure_time g) m (may_scale g)
  else g.

(** What calibrating finds out about the machine: whether a cpu may scale its frequency
    (Clock.cpp:76-111), twice the first quartile of the cycles gettimeofday takes
    (Clock.cpp:177-201), and the mean of the measured clock rates, if one of the ten tries
    ends with enough confidence (Clock.cpp:306-377). *)
Record measured := Measured { m_scaling : bool; m_max_measure : Z; m_rate : option double }.

(** Clock.cpp:250-272; the mutex is not modelled *)
Definition setClockRate (estimated_mhz : double) (g : globals) : res globals :=
  let! _ := invariant (Beqb (clock_rate g) minus_inf) in
  let inverse_clock_rate := ddiv (of_Z 1) estimated_mhz in
  let icrt := dmul inverse_clock_rate (ddiv (of_Z 4294967296) (of_Z 1000000)) in
  let! _ := invariant (Bltb (of_Z (max_recalibrate_measure_time g)) (dmul (of_Z 100) estimated_mhz)) in
  Ok (Globals estimated_mhz icrt (max_recalibrate_measure_time g) (mode g) (may_scale g)).

(** Clock.cpp:113-128; the warnings are not modelled *)
Definition checkForPossibleFrequencyScaling (scaling : bool) (g : globals) : res globals :=
  let g' := Globals (clock_rate g) (inverse_clock_rate_tfrac g) (max_recalibrate_measure_time g) (mode g) scaling in
  if negb scaling then Ok g' else if is_no (mode g) then Abort else Ok g'.

(** Clock.cpp:274-390 *)
Definition calibrateClock (m : measured) (g : globals) : res globals :=
  if negb (Beqb (clock_rate g) minus_inf) then Ok g
  else if is_use_tod (mode g) then
    Ok (Globals (of_Z 0) (inverse_clock_rate_tfrac g) (max_recalibrate_measure_time g) (mode g) true)
  else
    let! g := if negb (is_yes (mode g)) then checkForPossibleFrequencyScaling (m_scaling m) g else Ok g in
    let g := Globals (clock_rate g) (inverse_clock_rate_tfrac g) (m_max_measure m) (mode g) (may_scale g) in
    let! g := match m_rate m with Some r => setClockRate r g | None => Ok g end in
    let! _ := invariant (Bltb (of_Z 200) (clock_rate g)) in
    Ok g.

(** Clock.cpp:392-394 *)
Definition isCalibrated (g : globals) : bool := Bltb (of_Z 0) (clock_rate g) || is_use_tod (mode g).

(** The variables of a Clock, Clock.hpp:326 and 349-350. bad_get_tod_cycle_gap is not modelled. *)
Record clock := Clock {
  nrecalibrate : Z;
  last_calibrate_tod_tfrac : Z;
  last_cc : Z;
  last_recalibrate_cc : Z;
  recalibrate_interval_cycles : Z }.

(** Clock.cpp:492-507; 1 << 30 is an int and becomes a double *)
Definition setRecalibrateIntervalSeconds (interval : double) (g : globals) (c : clock) : res clock :=
  let tmp_recalibrate_cycles := dmul (dmul interval (of_Z 1000000)) (clock_rate g) in
  let extra_multiplier :=
    if Bltb (inverse_clock_rate_tfrac g) (of_Z 1) then of_Z 1 else inverse_clock_rate_tfrac g in
  let! _ := invariant (Bltb (dmul tmp_recalibrate_cycles extra_multiplier) (of_Z (2 ^ 30))) in
  let! cycles := to_unsigned 64 (dmul (dmul interval (of_Z 1000000)) (clock_rate g)) in
  Ok (Clock (nrecalibrate c) (last_calibrate_tod_tfrac c) (last_cc c) 0 cycles).

(** The default interval, 1e-3 (Clock.hpp:185). *)
Definition one_ms : double := ddiv (of_Z 1) (of_Z 1000).

(** Clock::Clock, Clock.cpp:396-407 *)
Definition newClock (allow_calibration : bool) (m : measured) (g : globals) : res (globals * clock) :=
  let! g :=
    if negb (isCalibrated g) then
      let! _ := invariant allow_calibration in
      let! g := calibrateClock m g in
      let! _ := invariant (Bltb (of_Z 0) (clock_rate g)) in
      Ok g
    else Ok g in
  let! c := setRecalibrateIntervalSeconds one_ms g (Clock 0 0 0 0 0) in
  Ok (g, c).

(** What the machine answers during one call: the cycle counter, and, if the clock asks for the
    time of day, the counter before, the time (a Tfrac) and the counter after. *)
Record readings := Readings { r_cc : Z; r_start : Z; r_tod : Z; r_end : Z }.

(** Clock.cpp:436-490. The answer, and the Clock afterwards. *)
Definition todccTfrac_recalibrate (g : globals) (c : clock) (r : readings) : res (Z * clock) :=
  let body :=
    let! _ := invariant (Bltb (of_Z 0) (clock_rate g)) in
    let! _ := invariant (last_calibrate_tod_tfrac c <=? r_tod r) in
    if (r_end r <=? r_start r)
       || (max_recalibrate_measure_time g <=? (r_end r - r_start r) mod 2 ^ 64)
    then Ok (r_tod r, Clock (nrecalibrate c) (last_calibrate_tod_tfrac c) (last_cc c) 0
                            (recalibrate_interval_cycles c))
    else
      let mid_cycle := ((r_start r + r_end r) mod 2 ^ 64) / 2 in
      Ok (r_tod r, Clock (nrecalibrate c + 1) (r_tod r) mid_cycle mid_cycle
                         (recalibrate_interval_cycles c)) in
  if may_scale g then
    match mode g with
    | ModeYes | ModeWarnFast => body
    | ModeWarnSlow | ModeSlow | ModeUseTod => Ok (r_tod r, c)
    | ModeNo => Abort
    end
  else body.

(** Clock.hpp:158-169. The answer, whether the time of day was asked for, and the Clock afterwards. *)
Definition todccTfrac (g : globals) (c : clock) (r : readings) : res (Z * bool * clock) :=
  let delta_cc := (r_cc r - last_recalibrate_cc c) mod 2 ^ 64 in
  if (r_cc r <=? last_cc c) || (recalibrate_interval_cycles c <? delta_cc) then
    let! (t, c) := todccTfrac_recalibrate g c r in Ok (t, true, c)
  else
    let c := Clock (nrecalibrate c) (last_calibrate_tod_tfrac c) (r_cc r) (last_recalibrate_cc c)
                   (recalibrate_interval_cycles c) in
    let delta_tfrac := dmul (of_Z (delta_cc mod 2 ^ 32)) (inverse_clock_rate_tfrac g) in
    let! d := to_unsigned 32 delta_tfrac in
    Ok ((last_calibrate_tod_tfrac c + d) mod 2 ^ 64, false, c).

(** A program that uses the static functions and one Clock. *)
Inductive cc_op :=
| Allow (m : freq_mode)
| Calibrate (m : measured)
| New (allow_calibration : bool) (m : measured)
| SetInterval (seconds : double)
| Now (r : readings).
Record cc_state := CC { glob : globals; obj : option clock }.
Definition cc0 : cc_state := CC globals0 None.
(** One operation: the state, and for [Now] the answer and whether gettimeofday was called. [New]
    replaces the Clock; without a Clock, [SetInterval] and [Now] do nothing. *)
Definition cc_step (s : cc_state) (o : cc_op) : res (cc_state * option (Z * bool)) :=
  match o with
  | Allow m => Ok (CC (allowUnsafeFrequencyScaling m (glob s)) (obj s), None)
  | Calibrate m => let! g := calibrateClock m (glob s) in Ok (CC g (obj s), None)
  | New a m => let! (g, c) := newClock a m (glob s) in Ok (CC g (Some c), None)
  | SetInterval x =>
      match obj s with
      | Some c => let! c := setRecalibrateIntervalSeconds x (glob s) c in Ok (CC (glob s) (Some c), None)
      | None => Ok (s, None)
      end
  | Now r =>
      match obj s with
      | Some c => let! (t, b, c) := todccTfrac (glob s) c r in Ok (CC (glob s) (Some c), Some (t, b))
      | None => Ok (s, None)
      end
  end.
Fixpoint cc_run (ops : list cc_op) (s : cc_state) : res (cc_state * list (readings * (Z * bool))) :=
  match ops with
  | [] => Ok (s, [])
  | o :: ops =>
      let! (s, a) := cc_step s o in
      let! (s, l) := cc_run ops s in
      Ok (s, match o, a with Now r, Some a => (r, a) :: l | _, _ => l end)
  end.
