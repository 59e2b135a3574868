(** Model of unitNormalCDF, probAbsNormal and unitNormalPDF,
    include/Lintel/MathSpecialFunctions.hpp:42-67, over an abstract arithmetic and for whatever
    exp and erf the libraries provide. The constants are written there with 32 digits; the
    nearest double to the first is 6369051672525773 / 2^53, to the second 7186705221432913 / 2^54. *)
From Coq Require Import ZArith.
From Verif Require Import Common Arith Double_Model.
Local Open Scope Z_scope.

Section NormFns.
Variable A : arith.
Variables exp_ erf_ : A -> A.
Definition half : A := ndiv (of_int 1) (of_int 2).
(** 0.70710678118654752440084436210485 *)
Definition sqrt_half : A := ndiv (of_int 6369051672525773) (of_int (2 ^ 53)).
(** lines 42-49 *)
Definition unitNormalCDF (x : A) : A := nmul half (nadd (of_int 1) (erf_ (nmul sqrt_half x))).
(** lines 55-62 *)
Definition probAbsNormal (x : A) : A := nsub (of_int 1) (erf_ (nmul sqrt_half (dabs A x))).
(** lines 66-67 *)
Definition unitNormalPDF (x : A) : A :=
  nmul (ndiv (of_int 7186705221432913) (of_int (2 ^ 54))) (exp_ (nmul (nmul (nopp half) x) x)).
End NormFns.
