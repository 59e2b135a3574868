(** Specification for calibrating the clock. Independent of the implementation model. *)
From Coq Require Import List Arith ZArith QArith Permutation.
From Verif Require Import Arith.
Import ListNotations.
Local Open Scope nat_scope.

(** [m] is the middle half of [l]: the least quarter and the greatest quarter left out. *)
Definition middle_half (l m : list xnum) : Prop :=
  exists least most, Permutation l (least ++ m ++ most) /\
    length least = (length l / 4)%nat /\ length least + length m = (3 * length l / 4)%nat /\
    (forall x y, In x least -> In y (m ++ most) -> xle x y = true) /\
    (forall x y, In x m -> In y most -> xle x y = true).
(** The measurements that succeeded, and the number of those that did not. *)
Definition succeeded (outcomes : list (option xnum)) : list xnum := flat_map (fun o => match o with Some x => [x] | None => [] end) outcomes.
Definition failures (outcomes : list (option xnum)) : nat := length (filter (fun o => match o with Some _ => false | None => true end) outcomes).
