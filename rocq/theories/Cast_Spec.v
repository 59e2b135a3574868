(** Specification of the pointer casts. *)
From Coq Require Import List Arith Bool.
From Verif Require Import Cast_Model.
Import ListNotations.

Section S.
Variable bases : nat -> list nat.
(** Bases are defined before the class, and none is named twice. *)
Definition hierarchy : Prop := forall c, NoDup (bases c) /\ (forall b, In b (bases c) -> b < c).
(** [steps c p t]: going from class [c] along the direct bases [p] ends at class [t]. *)
Inductive steps : nat -> list nat -> nat -> Prop :=
| here : forall c, steps c [] c
| into : forall c b p t, In b (bases c) -> steps b p t -> steps c (b :: p) t.
(** A pointer to a [t] subobject of an object. *)
Definition points_to (x : ptr) (t : nat) : Prop :=
  match x with None => True | Some a => steps (made_as a) (path a) t end.
(** [s] is a base of [t], and an unambiguous one. *)
Definition base_of (s t : nat) : Prop := exists r, steps t r s /\ forall r', steps t r' s -> r' = r.
(** Subobject [a] is (or is in a base part of) subobject [b] of the same object. *)
Definition part_of (a b : subobject) : Prop :=
  whole a = whole b /\ made_as a = made_as b /\ exists r, path a = path b ++ r.
End S.
