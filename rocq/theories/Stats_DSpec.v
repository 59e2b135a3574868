(** Double-precision notions used in statements about Stats. *)
From Coq Require Import List ZArith Reals.
From Flocq Require Import Core BinarySingleNaN.
From Verif Require Import Double64.
Import ListNotations.

(** [m] is a minimum (maximum) of [l]; plus (minus) infinity when there are no samples. *)
Definition dmin_of (m : double) (l : list double) : Prop :=
  (l = [] /\ m = B754_infinity false) \/ (In m l /\ Forall (fun x => (B2R m <= B2R x)%R) l).
Definition dmax_of (m : double) (l : list double) : Prop :=
  (l = [] /\ m = B754_infinity true) \/ (In m l /\ Forall (fun x => (B2R x <= B2R m)%R) l).
Definition all_finite (l : list double) : Prop := Forall (fun x => is_finite x = true) l.
(** [x] is finite and represents the integer [z] exactly. *)
Definition is_int (x : double) (z : Z) : Prop := is_finite x = true /\ B2R x = IZR z.
