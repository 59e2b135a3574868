(** Specification vocabulary for the cycle-counter clock. *)
From Coq Require Import List ZArith Reals Bool.
From Flocq Require Import Core BinarySingleNaN.
From Verif Require Import Common Double64 ClockCC_Model.
Import ListNotations.
Local Open Scope Z_scope.

Definition word (z : Z) : Prop := 0 <= z < 2 ^ 64.
(** What the machine can answer: four 64-bit numbers. *)
Definition machine (r : readings) : Prop := word (r_cc r) /\ word (r_start r) /\ word (r_tod r) /\ word (r_end r).
(** Operations with possible readings and measurements, and with an interval of at least 0 seconds
    (NaN, infinities and every length are allowed). *)
Definition sensible (o : cc_op) : Prop :=
  match o with
  | Allow _ => True
  | Calibrate m | New _ m => word (m_max_measure m)
  | SetInterval x => Bsign x = false
  | Now r => machine r
  end.
(** The program calibrates first, or never asks for AUFSO_UseTod. *)
Definition calibrates_first (ops : list cc_op) : Prop :=
  (exists ms m rest, ops = map Allow ms ++ Calibrate m :: rest) \/ ~ In (Allow ModeUseTod) ops.
(** An ordinary day: the machine was started at least 2^30 cycles ago, and the time still fits well
    in a Tfrac (until the year 2106). *)
Definition ordinary (o : cc_op) : Prop :=
  match o with Now r => 2 ^ 30 <= r_cc r /\ r_tod r < 2 ^ 64 - 2 ^ 32 | _ => True end.

(** The world: true time, in Tfrac units, as a function of the cycle counter. *)
Record world := World { w_start : R; w_per_cycle : R; w_quantum : R }.
Definition true_time (w : world) (c : R) : R := (w_start w + w_per_cycle w * c)%R.
(** gettimeofday answers, between the two readings of the counter around it, the true time up to the
    quantum. *)
Definition honest (w : world) (o : cc_op) : Prop :=
  match o with
  | Now r => r_start r < 2 ^ 63 /\ r_end r < 2 ^ 63 /\
      exists m : R, ((IZR (r_start r) <= m <= IZR (r_end r) \/ IZR (r_end r) <= m <= IZR (r_start r)) /\
        Rabs (IZR (r_tod r) - true_time w m) <= w_quantum w)%R
  | _ => True
  end.
(** An answer that did not ask for the time of day comes after another answer and is not earlier. *)
Fixpoint steady (prev : option Z) (l : list (readings * (Z * bool))) : Prop :=
  match l with
  | [] => True
  | (_, (t, asked)) :: l => (asked = false -> exists p, prev = Some p /\ p <= t) /\ steady (Some t) l
  end.
