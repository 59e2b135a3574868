(** Model of src/drawRandomLogNormal.cpp over an abstract arithmetic and for whatever sqrt, log, exp and
    erf the library provides. The code under REGRESSION_TEST is not modelled. *)
From Coq Require Import List ZArith Bool.
From Verif Require Import Common Arith Double_Model MathFns_Model.
Import ListNotations.
Local Open Scope Z_scope.

Section LogNormal.
Variable A : arith.
Variables sqrt_ log_ exp_ erf_ : A -> A.
(** M_PI *)
Variable pi_ : A.
Local Notation int := (@of_int A).
Local Notation "x + y" := (@nadd A x y).
Local Notation "x - y" := (@nsub A x y).
Local Notation "x * y" := (@nmul A x y).
Local Notation "x / y" := (@ndiv A x y).

(** drawRandomLogNormal.cpp:82 *)
Definition s2 : A := sqrt_ (int 2).
(** 1.e-6, 1.e-3 and the like *)
Local Notation decimal := (dec A).

(** logNormal, 89-106 *)
Definition logNormal (x log_mean log_sigma lin_up_limit : A) : A :=
  if nlt x (log_mean * decimal 1 6) then int 0
  else if nle lin_up_limit x then int 0
  else
    let normal := (int 1 + erf_ ((log_ lin_up_limit - log_mean) / s2 / log_sigma)) / int 2 in
    exp_ (nopp (log_ x - log_mean) * (log_ x - log_mean) / int 2 / log_sigma / log_sigma) / sqrt_ (int 2 * pi_) / log_sigma / x / normal.

(** momentLogNormal, 119-127. power * power is a product of ints, which fits for the powers 0, 1 and 2
    that are used. *)
Definition momentLogNormal (log_mean log_sigma up_limit : A) (power : Z) : A :=
  exp_ (int power * log_mean + int (power * power)%Z * log_sigma * log_sigma / int 2)
  * (int 1 + erf_ ((up_limit - log_mean - int power * log_sigma * log_sigma) / s2 / log_sigma))
  / (int 1 + erf_ ((up_limit - log_mean) / s2 / log_sigma)).

Record vec := Vec { v0 : A; v1 : A }.
Record mat := Mat { m00 : A; m01 : A; m10 : A; m11 : A }.

(** solve2, 165-182: success, determinant and solution *)
Definition solve2 (a : mat) (b : vec) : bool * A * vec :=
  let d := m00 a * m11 a - m01 a * m10 a in
  if nlt (dabs A d) (decimal 1 6) then (false, d, Vec (int 0) (int 0))
  else (true, d, Vec ((v0 b * m11 a - v1 b * m01 a) / d) ((v1 b * m00 a - v0 b * m10 a) / d)).

(** findZero, 195-264, for n = 2. [func] gives the functions and the jacobian. Result: success, the final
    [x], and the number of calls of [func]. *)
Fixpoint findZero (n_trial : nat) (func : vec -> vec * mat) (x : vec) (tolx tolf : A) : bool * vec * nat :=
  match n_trial with
  | O => (false, x, O)
  | S n_trial =>
      let (f, j) := func x in
      let err_f := int 0 + dabs A (v0 f) + dabs A (v1 f) in
      if nle err_f tolf then (true, x, 1%nat)
      else
        let '(solve_worked, _, c) := solve2 j (Vec (nopp (v0 f)) (nopp (v1 f))) in
        if negb solve_worked then (false, x, 1%nat)
        else
          let errx := int 0 + dabs A (v0 c) + dabs A (v1 c) in
          let x := Vec (v0 x + v0 c) (v1 x + v1 c) in
          if nle errx tolx then (true, x, 1%nat)
          else let '(ok, x, calls) := findZero n_trial func x tolx tolf in (ok, x, S calls)
  end.

(** The deviations from the desired mean and variance, 422-429 and 474-481 *)
Definition deviations (mean sigma log_up_limit : A) (x : vec) : vec :=
  let obs_mean := momentLogNormal (v0 x) (v1 x) log_up_limit 1 in
  let obs_2nd := momentLogNormal (v0 x) (v1 x) log_up_limit 2 in
  Vec (obs_mean - mean) (obs_2nd - obs_mean * obs_mean - sigma * sigma).
(** One component of x_step, 462-468 *)
Definition stepped (x : A) : A :=
  if nlt (dabs A x) (int 1) then x + decimal 1 3 else x + decimal 1 3 * dabs A x.
(** targetFunc, 414-492; the desired values are static variables there *)
Definition targetFunc (mean sigma up_limit : A) (x : vec) : vec * mat :=
  let log_up_limit := log_ up_limit in
  let f := deviations mean sigma log_up_limit x in
  let x_step := Vec (stepped (v0 x)) (stepped (v1 x)) in
  let f_step0 := deviations mean sigma log_up_limit (Vec (v0 x_step) (v1 x)) in
  let f_step1 := deviations mean sigma log_up_limit (Vec (v0 x) (v1 x_step)) in
  (f, Mat ((v0 f_step0 - v0 f) / (v0 x_step - v0 x)) ((v0 f_step1 - v0 f) / (v1 x_step - v1 x))
          ((v1 f_step0 - v1 f) / (v0 x_step - v0 x)) ((v1 f_step1 - v1 f) / (v1 x_step - v1 x))).

(** solveLogNormal, 523-560: log_mean, log_sigma, log_up_limit *)
Definition solveLogNormal (lin_mean lin_sigma lin_up_limit : A) : option (A * A * A) :=
  let log_up_limit := log_ lin_up_limit in
  let x1 := sqrt_ (log_ (lin_sigma * lin_sigma / lin_mean / lin_mean + int 1)) in
  let x0 := log_ lin_mean - x1 * x1 / int 2 in
  let '(finder_success, x, _) := findZero 500 (targetFunc lin_mean lin_sigma lin_up_limit) (Vec x0 x1) (decimal 1 6) (decimal 1 3) in
  if finder_success then Some (v0 x, v1 x, log_up_limit) else None.

(** normal_random_limit, 566-587. [draws] are the pairs of numbers that drand48 gives. *)
Fixpoint normal_random_limit (up_limit : A) (draws : list (A * A)) : res A :=
  match draws with
  | [] => Fuel
  | (d1, d2) :: draws =>
      let v1 := int 2 * d1 - int 1 in
      let v2 := int 2 * d2 - int 1 in
      let vr := v1 * v1 + v2 * v2 in
      if nlt (int 0) vr || nle vr (int 1) then
        let nr := v1 * sqrt_ (int (-2) * log_ vr / vr) in
        if nle nr up_limit then Ok nr
        else
          let nr := v2 * sqrt_ (int (-2) * log_ vr / vr) in
          if nle nr up_limit then Ok nr else normal_random_limit up_limit draws
      else normal_random_limit up_limit draws
  end.

(** An argument of the program: is it "-v", and what strtod and strtol make of it. *)
Record argument := Arg { is_v : bool; as_double : option A; as_long : option Z }.
(** What the program does: a usage message and exit 1; no solution and exit 2; success without a
    number; success with a number on stdout. *)
Inductive result := Usage | NoSolution | Fitted | Number (r : A).
(** main, 620-704 without the output for -v; [draws seed] is what drand48 gives after srand48(seed).
    argv[argc] is a null pointer, which strcmp must not read. *)
Definition main (args : list argument) (draws : Z -> list (A * A)) : res result :=
  match args with
  | [] => UB
  | first :: rest =>
      let args := if is_v first then rest else args in
      match args with
      | [a; b; c] | [a; b; c; _] =>
          match as_double a with
          | None => Ok Usage
          | Some lin_mean => if nle lin_mean (int 0) then Ok Usage else
          match as_double b with
          | None => Ok Usage
          | Some lin_sigma => if nle lin_sigma (int 0) then Ok Usage else
          match as_double c with
          | None => Ok Usage
          | Some lin_up_limit => if nle lin_up_limit (int 0) then Ok Usage else
          let finish (seed : option Z) :=
            match solveLogNormal lin_mean lin_sigma lin_up_limit with
            | None => Ok NoSolution
            | Some (log_mean, log_sigma, log_up_limit) =>
                match seed with
                | None => Ok Fitted
                | Some seed =>
                    let normal_up_limit := (log_up_limit - log_mean) / log_sigma in
                    let! nr := normal_random_limit normal_up_limit (draws seed) in
                    Ok (Number (exp_ (log_sigma * nr + log_mean)))
                end
            end in
          match args with
          | [_; _; _; d] => match as_long d with None => Ok Usage | Some seed => finish (Some seed) end
          | _ => finish None
          end end end end
      | _ => Ok Usage
      end
  end.
End LogNormal.
Arguments Vec {A}.
Arguments v0 {A}.
Arguments v1 {A}.
Arguments Mat {A}.
Arguments m00 {A}.
Arguments m01 {A}.
Arguments m10 {A}.
Arguments m11 {A}.
Arguments Arg {A}.
Arguments is_v {A}.
Arguments as_double {A}.
Arguments as_long {A}.
Arguments Number {A}.
Arguments Usage {A}.
Arguments NoSolution {A}.
Arguments Fitted {A}.
