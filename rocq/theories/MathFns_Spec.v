(** Specification vocabulary for the numeric helpers. *)
From Coq Require Import ZArith Reals.
Local Open Scope Z_scope.

(** [n] is an integer nearest to [x]. *)
Definition nearest (x : R) (n : Z) : Prop := (Rabs (x - IZR n) <= / 2)%R.
(** [n] is the integer nearest to [x], the one away from zero when two are equally near
    (what C's round() returns). *)
Definition rounds_to (x : R) (n : Z) : Prop :=
  nearest x n /\ (Rabs (x - IZR n) = / 2 -> Rabs x < Rabs (IZR n))%R.
(** [x] lies within 1/16 of an integer. *)
Definition near_integer (x : R) : Prop := exists n : Z, (Rabs (x - IZR n) < / 16)%R.
(** The numbers just below one half in absolute value, and the odd integers between 2^52
    and 2^53 in absolute value: adding one half to them is not exact in doubles. *)
Definition awkward (x : R) : Prop :=
  (Rabs x = / 2 - / IZR (2 ^ 54))%R \/ exists k, x = IZR k /\ Z.odd k = true /\ 2 ^ 52 < Z.abs k < 2 ^ 53.
