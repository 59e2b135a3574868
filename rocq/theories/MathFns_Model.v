(** Model of src/MathSpecialFunctions.cpp. The integer conversions are in IEEE doubles, on a platform where long and
    long long both have 8 bytes (x86-64). *)
From Coq Require Import ZArith Bool.
From Flocq Require Import Core BinarySingleNaN.
From Verif Require Import Common Double64 Arith Double_Model.
Local Open Scope Z_scope.

(** The fractional part that modf(d, &dummy) of the C library returns: d minus d rounded
    towards zero, which is exact; 0 for an infinity, NaN for NaN. The sign of a zero
    result is not modelled (nothing below depends on it). *)
Definition modf_frac (d : double) : double :=
  match d with
  | B754_nan => B754_nan
  | B754_infinity _ => of_Z 0
  | _ => dsub d (of_Z (Btrunc d))
  end.
(** roundingErrorPart, MathSpecialFunctions.cpp:60-72 *)
Definition roundingErrorPart (d : double) : double :=
  let p := modf_frac d in
  let half := ddiv (of_Z 1) (of_Z 2) in
  let p := if Bltb half p then dsub p (of_Z 1) else p in
  if Bltb p (Bopp half) then dadd p (of_Z 1) else p.
(** The constant 1.0/16.0 *)
Definition sixteenth : double := ddiv (of_Z 1) (of_Z 16).
(** isDoubleIntegral, MathSpecialFunctions.cpp:80-140. sizeof(long) and
    sizeof(long long) are 8, the double made from LONG_MAX or LONG_LONG_MAX is 2^63. The
    INVARIANT aborts for any other target size. A comparison with NaN is false. *)
Definition isDoubleIntegral (d : double) (target_size : Z) : res bool :=
  if negb ((0 <? target_size) && (target_size =? 8)) then Abort
  else if Bleb (of_Z (2 ^ 63 - 1)) (Babs d) then Ok false
  else if Bleb sixteenth (Babs (roundingErrorPart d)) then Ok false
  else if Bltb (Babs (roundingErrorPart (dadd d sixteenth))) sixteenth
       && Bltb (Babs (roundingErrorPart (dsub d sixteenth))) sixteenth then Ok false
  else Ok true.
(** Conversion of a double to a signed 64-bit integer: towards zero; undefined when the
    truncated value does not fit. *)
Definition to_long (x : double) : res Z :=
  if is_finite x then
    let z := Btrunc x in if (- 2 ^ 63 <=? z) && (z <? 2 ^ 63) then Ok z else UB
  else UB.
(** convertDoubleLong and convertDoubleLongLong, MathSpecialFunctions.cpp:147-155 *)
Definition convertDoubleLong (d : double) : res Z :=
  let sign := if Bleb (of_Z 0) d then of_Z 1 else of_Z (-1) in
  to_long (dadd d (ddiv sign (of_Z 2))).

(** inverseErf, MathSpecialFunctions.cpp:22-50, over an abstract arithmetic and for
    whatever sqrt, log, exp and erf the libraries provide. *)
Section InverseErf.
Variable A : arith.
Variables sqrt_ log_ exp_ erf_ : A -> A.
(** A decimal constant n / 10^k. In doubles it is what the compiler reads, correctly
    rounded, because every n used below is below 2^53 and 10^k with k <= 16 is a double. *)
Definition dec (n k : Z) : A := ndiv (of_int n) (of_int (10 ^ k)).
(** The loop, 41-48; [x0] and [y0] are the values before an iteration. *)
Fixpoint erf_loop (fuel : nat) (y upperBound lowerBound x0 y0 : A) : res A :=
  match fuel with
  | O => Fuel
  | S fuel =>
      let x0 := nadd x0 (nmul (nmul (nsub y y0) (exp_ (nmul x0 x0))) (dec 886226925452758 15)) in
      let y0 := erf_ x0 in
      if nlt upperBound y0 || nlt y0 lowerBound then erf_loop fuel y upperBound lowerBound x0 y0
      else Ok x0
  end.
(** The initial guess, 30-32 *)
Definition erf_guess (y : A) : A :=
  let x0 := sqrt_ (nmul (of_int (-2)) (log_ (nmul (dec 5 1) (nsub (of_int 1) y)))) in
  nmul (dec 7071067811865476 16)
    (nsub x0 (ndiv (nadd (dec 2515517 6) (nmul x0 (nadd (dec 802853 6) (nmul x0 (dec 10328 6)))))
                   (nadd (of_int 1) (nmul x0 (nadd (dec 1432788 6) (nmul x0 (nadd (dec 189269 6) (nmul x0 (dec 1308 6))))))))).
(** fabs is as in class Double; the quiet NaN is the result of 0/0. *)
Definition inverseErf (fuel : nat) (y : A) : res A :=
  if nle (of_int 1) (dabs A y) then Ok (ndiv (of_int 0) (of_int 0))
  else
    let x0 := erf_guess y in
    let upperBound := nmul y (dec 100000000000001 14) in
    let lowerBound := nmul y (dec 99999999999999 14) in
    erf_loop fuel y upperBound lowerBound x0 (erf_ x0).
(** inverseUnitNormalCDF, MathSpecialFunctions.hpp:73-74. sqrt(2) is written there with 32
    digits; the nearest double to it is 6369051672525773 / 2^52. *)
Definition inverseUnitNormalCDF (fuel : nat) (x : A) : res A :=
  let! r := inverseErf fuel (nsub (nmul (of_int 2) x) (of_int 1)) in
  Ok (nmul (ndiv (of_int 6369051672525773) (of_int (2 ^ 52))) r).
End InverseErf.
