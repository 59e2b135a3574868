(** Specification for measuring the clock. Independent of the implementation model. *)
From Coq Require Import List Arith ZArith QArith Permutation.
Import ListNotations.

(** [x] is in place [k], from 0, when [l] is put in order. *)
Definition rank {A} (le : A -> A -> Prop) (k : nat) (l : list A) (x : A) : Prop :=
  exists lower upper, Permutation l (lower ++ x :: upper) /\ length lower = k /\
    (forall y, In y lower -> le y x) /\ (forall y, In y upper -> le x y).
(** The readings contain a whole quantum: [count] readings of one time between others, the
    time after it being later; [q] is the seconds that each reading took. *)
Definition whole_quantum (script : list Z) (q : Q) : Prop :=
  exists before start next count after, (1 <= count)%nat /\
    script = before ++ repeat start count ++ next :: after /\ (start < next)%Z /\
    (exists x, last before x <> start) /\ (before <> []) /\
    (q == inject_Z (next - start) / (4294967296 * inject_Z (Z.of_nat count)))%Q.
(** How the time of day moved between readings, where it did. *)
Fixpoint changes (prev : Z) (l : list Z) : list Z :=
  match l with
  | [] => []
  | t :: r => if Z.eqb ((t - prev) mod 2 ^ 64) 0 then changes prev r else (((t - prev) mod 2 ^ 64) :: changes t r)%Z
  end.
