(** Model of StatsSeries::iscorrelated95 (src/StatsSeries.cpp:148-166). The
    autocorrelation is the exact one of Series_Model.v; log and sqrt are those of the
    real numbers, continued to infinity as in C. checkInvariants() is true of every
    live object (src/Stats.cpp:38-40). *)
From Coq Require Import List ZArith QArith Qreals Reals.
From Verif Require Import Common Arith Stats_Model Series_Model.
Local Open Scope Z_scope.

(** z >= 1.96 for z = (sqrt(n - 3.0)/2.0)*log(x), StatsSeries.cpp:164-165. log is -inf
    for 0 and NaN for negative numbers; both make the comparison false. *)
Definition z_large (n : Z) (x : exact) : bool :=
  match x with
  | Fin q =>
    if Rlt_dec 0 (Q2R q) then
      (if Rle_dec (196 / 100) (sqrt (IZR n - 3) / 2 * ln (Q2R q))%R then true else false)
    else false
  | Inf false => true
  | Inf true | NaN => false
  end.

Definition iscorrelated95 (s : series exact) (lag : nat) : res bool :=
  if st_count exact (se_stats s) <=? 3 then Ok false else
  let! r := autocorrelation exact s lag in
  Ok (z_large (st_count exact (se_stats s)) (ndiv (nadd (of_int 1) r) (nsub (of_int 1) r))).
