(** The real functions inverseErf calls: what sqrt(), log(), exp() and erf() compute when
    there is no rounding. *)
From Coq Require Import Reals.
From Coquelicot Require Import Coquelicot.
From Verif Require Import Common Arith RealArith.
Local Open Scope R_scope.

(** erf x = 2/sqrt(pi) * (integral of exp(-t^2) for t from 0 to x) *)
Definition bell (t : R) : R := exp (- (t * t)).
Definition area (x : R) : R := RInt bell 0 x.
Definition Rerf (x : R) : R := 2 / sqrt PI * area x.
(** erf() and sqrt() on [reals]; log() and exp() are [rlog] and [rexp] of RealArith. *)
Definition real_erf (x : reals) : reals := match x with RFin a => RFin (Rerf a) | RUndef => RUndef end.
Definition rsqrt (x : reals) : reals :=
  match x with RFin a => if Rle_dec 0 a then RFin (sqrt a) else RUndef | RUndef => RUndef end.
