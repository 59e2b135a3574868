(** Specification vocabulary: the normal distribution with mean 0 and variance 1. *)
From Coq Require Import Reals.
From Coquelicot Require Import Coquelicot.
Local Open Scope R_scope.

Definition bell_curve (t : R) : R := exp (- t ^ 2 / 2) / sqrt (2 * PI).
(** [p] is the probability of a value below [x]: the integral from [a] to [x] tends to [p] as
    [a] goes to minus infinity. *)
Definition probability_below (x p : R) : Prop :=
  filterlim (fun a => RInt bell_curve a x) (Rbar_locally m_infty) (locally p).
(** The probability of a value whose absolute value is above [x], for [x] not negative. *)
Definition probability_beyond (x : R) : R := 1 - RInt bell_curve (- x) x.
