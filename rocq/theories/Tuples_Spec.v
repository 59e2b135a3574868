(** Specification of tuples with "any" positions: a tuple stands for the list of
    its coordinates, None where it says any. *)
From Coq Require Import List Bool.
Import ListNotations.

(** Requirements on the coordinate type's == and <. *)
Definition total_order {A} (eqb ltb : A -> A -> bool) : Prop :=
  (forall x y, eqb x y = true <-> x = y)
  /\ (forall x, ltb x x = false)
  /\ (forall x y z, ltb x y = true -> ltb y z = true -> ltb x z = true)
  /\ (forall x y, ltb x y = true \/ x = y \/ ltb y x = true).
(** Order of coordinates, any being the largest. *)
Definition coord_lt {A} (ltb : A -> A -> bool) (x y : option A) : Prop :=
  match x, y with Some a, Some b => ltb a b = true | Some _, None => True | None, _ => False end.
(** Dictionary order. *)
Inductive dict_lt {A} (ltb : A -> A -> bool) : list (option A) -> list (option A) -> Prop :=
| dict_here : forall x y xs ys, coord_lt ltb x y -> dict_lt ltb (x :: xs) (y :: ys)
| dict_later : forall x xs ys, dict_lt ltb xs ys -> dict_lt ltb (x :: xs) (x :: ys).
(** The coordinates a tuple and its mask stand for. *)
Fixpoint pattern {A} (data : list A) (any : list bool) : list (option A) :=
  match data, any with
  | x :: d, b :: m => (if b then None else Some x) :: pattern d m
  | _, _ => []
  end.
