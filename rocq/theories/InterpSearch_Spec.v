(** Specification of a lower-bound search. *)
From Coq Require Import List Bool.
Import ListNotations.

(** [r] is the first position of [l] whose element is not less than [v]. *)
Definition lower_bound_at {A} (less : A -> A -> bool) (l : list A) (v : A) (r : nat) : Prop :=
  r <= length l
  /\ (forall i x, nth_error l i = Some x -> i < r -> less x v = true)
  /\ (forall i x, nth_error l i = Some x -> r <= i -> less x v = false).
(** [l] is in order: nothing is less than something before it. *)
Definition in_order {A} (less : A -> A -> bool) (l : list A) : Prop :=
  forall i j x y, nth_error l i = Some x -> nth_error l j = Some y -> i < j -> less y x = false.
(** What makes a comparison an ordering with "neither is less" as equivalence. *)
Definition strict_weak_order {A} (less : A -> A -> bool) : Prop :=
  (forall x, less x x = false)
  /\ (forall x y z, less x y = true -> less y z = true -> less x z = true)
  /\ (forall x y z, less x z = true -> less x y = true \/ less y z = true).
