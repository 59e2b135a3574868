(** Vocabulary for C94: the quantiles printed by StatsQuantile. *)
From Coq Require Import List ZArith Reals.
From Flocq Require Import Core BinarySingleNaN.
From Verif Require Import Common Double64 Arith Quantile_Model Quantile_Spec PrintQ_Model.
Import ListNotations.
Local Open Scope Z_scope.

(** The row shows a value of [values] whose rank (from 1) is within [tol] of [target]. *)
Definition shows (values : list Z) (target tol : R) (r : row ieee) : Prop :=
  exists v rank, r_val r = Some v /\ element_at values (rank - 1) v /\ (Rabs (IZR rank - target) <= tol)%R.
(** The values of the rows never decrease. *)
Definition ascending (rows : list (row ieee)) : Prop :=
  forall i j ri rj vi vj, (i <= j)%nat -> nth_error rows i = Some ri -> nth_error rows j = Some rj ->
    r_val ri = Some vi -> r_val rj = Some vj -> vi <= vj.
(** 90%, 95%, 99%, 99.5%, ... as doubles: the nearest doubles to 1 - 1/10^j and
    1 - 1/(2*10^j), for j = 1 .. k *)
Definition tail_quantiles (k : nat) : list double :=
  flat_map (fun j => let p := 10 ^ Z.of_nat j in [ddiv (of_Z (p - 1)) (of_Z p); ddiv (of_Z (2 * p - 1)) (of_Z (2 * p))]) (seq 1 k).
