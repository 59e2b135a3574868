(** Model of the comparisons of class Double (include/Lintel/Double.hpp) over an
    abstract arithmetic. setFP64BitMode and resetFPMode do nothing on x86-64 and
    are not modelled; default_epsilon is an explicit argument. *)
From Coq Require Import ZArith.
From Verif Require Import Common Arith.
Local Open Scope Z_scope.

Section M.
Variable A : arith.

(** setEpsilonDigits and setEpsilonBits, Double.hpp:40-51, [base] is 10 or 2 *)
Fixpoint eps_loop (n : nat) (base : Z) (e : A) : A :=
  match n with O => e | S n => eps_loop n base (ndiv e (of_int base)) end.
Definition epsilonDigits (digits : nat) : A := eps_loop digits 10 (of_int 1).
Definition epsilonBits (bits : nat) : A := eps_loop bits 2 (of_int 1).

(** abs, Double.hpp:53-55 *)
Definition dabs (a : A) : A := if nlt a (of_int 0) then nopp a else a.
(** std::min(x, y): y < x ? y : x *)
Definition dmin (x y : A) : A := if nlt y x then y else x.
(** eq(a, b, epsilon), Double.hpp:56-64 *)
Definition d_eq (eps a b : A) : bool :=
  let relto := dmin (dabs a) (dabs b) in
  let diff := dabs (nsub a b) in
  if neq relto (of_int 0) then nlt diff eps else nlt (ndiv diff relto) eps.
(** leq, lt, geq, gt, Double.hpp:68-79 *)
Definition d_leq (eps a b : A) : bool := orb (nlt a b) (d_eq eps a b).
Definition d_lt (eps a b : A) : bool := andb (nlt a b) (negb (d_eq eps a b)).
Definition d_geq (eps a b : A) : bool := orb (nlt b a) (d_eq eps a b).
Definition d_gt (eps a b : A) : bool := andb (nlt b a) (negb (d_eq eps a b)).
End M.
