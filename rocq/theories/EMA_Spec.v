(** Specification of StatsEMA: the usual exponential moving average, started from
    the mean of the first floor(1/decay) samples. *)
From Coq Require Import List Arith ZArith QArith Qround.
From Verif Require Import Common Arith Stats_Spec.
Import ListNotations.

Definition smooth (d e v : Q) : Q := (1 - d) * e + d * v.
Definition warm_up (d : Q) : nat := Z.to_nat (Qfloor (1 / d)).
Definition ema_of (d : Q) (l : list Q) : Q :=
  fold_left (smooth d) (skipn (warm_up d) l) (qmean (firstn (warm_up d) l)).
