(** Specification of a histogram that accumulates a second value. *)
From Coq Require Import List QArith.
From Verif Require Import Histogram_Spec.
Import ListNotations.
Local Open Scope Q_scope.

(** The sum of the data of the samples (index, data) whose index satisfies [p]. *)
Fixpoint total_of (p : Q -> bool) (l : list (Q * Q)) : Q :=
  match l with
  | [] => 0
  | (x, d) :: r => (if p x then d else 0) + total_of p r
  end.
