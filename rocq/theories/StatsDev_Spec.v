(** Mean, variance and standard deviation of samples, over the real numbers. *)
From Coq Require Import List ZArith Reals.
From Flocq Require Import Core BinarySingleNaN.
From Verif Require Import Double64 Stats_Spec.
Import ListNotations.
Local Open Scope R_scope.

Definition rsum (l : list R) : R := fold_right Rplus 0 l.
Definition rlen {X} (l : list X) : R := IZR (Z.of_nat (length l)).
Definition rmean (l : list R) : R := rsum l / rlen l.
(** Mean squared deviation from the mean. *)
Definition rvar (l : list R) : R := rsum (map (fun x => (x - rmean l) * (x - rmean l)) l) / rlen l.
Definition reals_of (l : list double) : list R := map (fun x : double => B2R x) l.

(** Finite samples no larger than 2^e. *)
Definition within (e : Z) (l : list double) : Prop :=
  Forall (fun x => is_finite x = true /\ Rabs (B2R x) <= bpow radix2 e) l.
(** The unit of rounding of a double, 2^-53. *)
Definition ulp1 : R := / IZR (2 ^ 53).

(** How often reset() was called on object [i]. *)
Definition resets_called {X} (ops : list (op X)) (i : nat) : Z :=
  Z.of_nat (length (filter (fun o => match o with OReset j => Nat.eqb j i | _ => false end) ops)).
