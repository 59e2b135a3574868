(** Vocabulary for the statements about random numbers. *)
From Coq Require Import List Arith ZArith.
From Verif Require Import Common.
Import ListNotations.
Local Open Scope Z_scope.

(** The generator [next] in state [g] hands out the words [rs] and is then in [g']. *)
Inductive emits {G : Type} (next : G -> res (Z * G)) : G -> list Z -> G -> Prop :=
| emits_nil : forall g, emits next g [] g
| emits_cons : forall g r g1 rs g', next g = Ok (r, g1) -> emits next g1 rs g' -> emits next g (r :: rs) g'.

(** Exactly [n] numbers satisfy [P]. *)
Definition numbers (P : Z -> Prop) (n : Z) : Prop :=
  exists l, NoDup l /\ (forall r, In r l <-> P r) /\ Z.of_nat (length l) = n.

(** The 64 bits of a word, lowest first. *)
Definition bits64 (x : Z) : list bool := map (fun i => Z.testbit x (Z.of_nat i)) (seq 0 64).

(** What the draws select in a shuffle: the draw for position [i] is taken modulo [i+1]. *)
Fixpoint choices (i : nat) (rs : list Z) : list nat :=
  match rs with [] => [] | r :: rs => Z.to_nat (r mod Z.of_nat (S i)) :: choices (S i) rs end.
