(** Vocabulary for the order of ConstantStrings: dictionary order of bytes, a
    proper prefix coming first. *)
From Coq Require Import List ZArith.
Import ListNotations.
Local Open Scope Z_scope.

Inductive bytes_lt : list Z -> list Z -> Prop :=
| lt_prefix : forall y ys, bytes_lt [] (y :: ys)
| lt_here : forall x y xs ys, x < y -> bytes_lt (x :: xs) (y :: ys)
| lt_later : forall x xs ys, bytes_lt xs ys -> bytes_lt (x :: xs) (x :: ys).
(** A string of bytes none of which is NUL. *)
Definition no_nul (s : list Z) : Prop := Forall (fun b => 0 < b < 256) s.
