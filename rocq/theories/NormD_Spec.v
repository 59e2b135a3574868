(** Specification vocabulary: an erf for doubles. *)
From Coq Require Import Reals ZArith.
From Flocq Require Import Core BinarySingleNaN.
From Verif Require Import Double64 MathFns_RealSpec.
Local Open Scope R_scope.

(** For every finite argument the answer is finite and off by at most [e]. *)
Definition erf_within (e : R) (erf : double -> double) : Prop :=
  forall y, is_finite y = true -> is_finite (erf y) = true /\ Rabs (B2R (erf y) - Rerf (B2R y)) <= e.
