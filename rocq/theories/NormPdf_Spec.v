(** Specification vocabulary: an exp for doubles. *)
From Coq Require Import Reals ZArith.
From Flocq Require Import Core BinarySingleNaN.
From Verif Require Import Double64.
Local Open Scope R_scope.

(** For every finite argument that is not positive the answer is finite and off by at most [e]. *)
Definition exp_within (e : R) (ex : double -> double) : Prop :=
  forall y, is_finite y = true -> B2R y <= 0 -> is_finite (ex y) = true /\ Rabs (B2R (ex y) - exp (B2R y)) <= e.
