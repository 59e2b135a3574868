(** Specification vocabulary: the log-normal distribution, cut off at a limit, and the polar method. *)
From Coq Require Import Reals List.
From Coquelicot Require Import Coquelicot.
From Verif Require Import RealArith LogNormal_Model.
Import ListNotations.
Local Open Scope R_scope.

(** The density of exp(Z) for a normal Z with mean [m] and standard deviation [s]. *)
Definition density (m s x : R) : R := exp (- (ln x - m) ^ 2 / (2 * s ^ 2)) / (x * s * sqrt (2 * PI)).
(** The integral of x^r times the density, from [x0] to [U]; [whole]: it tends to [N] as [x0] goes to 0;
    [whole_above]: the integral from [U] to [x1] tends to [N] as [x1] goes to infinity. *)
Definition part (r : nat) (m s U x0 : R) : R := RInt (fun x => x ^ r * density m s x) x0 U.
Definition whole (r : nat) (m s U N : R) : Prop := filterlim (part r m s U) (at_right 0) (locally N).
Definition whole_above (r : nat) (m s U N : R) : Prop :=
  filterlim (fun x1 => RInt (fun x => x ^ r * density m s x) U x1) (Rbar_locally p_infty) (locally N).
(** [M] is the r-th moment of the distribution restricted to what is below (above) [U]. *)
Definition moment (r : nat) (m s U M : R) : Prop :=
  exists N0 Nr, whole 0 m s U N0 /\ whole r m s U Nr /\ 0 < N0 /\ M = Nr / N0.
Definition moment_above (r : nat) (m s U M : R) : Prop :=
  exists N0 Nr, whole_above 0 m s U N0 /\ whole_above r m s U Nr /\ 0 < N0 /\ M = Nr / N0.
(** The mean and the variance of the distribution with the parameters [m], [s], where a negative [s]
    stands for the part above the limit, deviate by at most [tol] in all from the desired values. *)
Definition close (tol mean sigma U m s : R) : Prop :=
  exists M1 M2,
    (0 < s /\ moment 1 m s U M1 /\ moment 2 m s U M2 \/
     s < 0 /\ moment_above 1 m (- s) U M1 /\ moment_above 2 m (- s) U M2) /\
    Rabs (M1 - mean) + Rabs ((M2 - M1 ^ 2) - sigma ^ 2) <= tol.

(** The polar method: a pair of numbers from [0, 1] gives two normally distributed numbers if it falls
    into the unit circle. *)
Definition polar (d : R * R) : list R :=
  let a := 2 * fst d - 1 in
  let b := 2 * snd d - 1 in
  let q := a ^ 2 + b ^ 2 in
  if Rlt_dec 0 q then if Rle_dec q 1 then [a * sqrt (- 2 * ln q / q); b * sqrt (- 2 * ln q / q)] else [] else [].

(** How a search in the reals ends: at a point where the functions are small, or after a small step. *)
Definition total (f : R * R) : R := Rabs (fst f) + Rabs (snd f).
Inductive search (F : R -> R -> R * R) (J : R -> R -> R * R * (R * R)) (tolx tolf : R) : nat -> R -> R -> R -> R -> Prop :=
| search_zero k x y : total (F x y) <= tolf -> search F J tolx tolf (S k) x y x y
| search_step k x y u v : tolf < total (F x y) ->
    fst (fst (J x y)) * u + snd (fst (J x y)) * v = - fst (F x y) -> fst (snd (J x y)) * u + snd (snd (J x y)) * v = - snd (F x y) ->
    Rabs u + Rabs v <= tolx -> search F J tolx tolf (S k) x y (x + u) (y + v)
| search_on k x y u v x' y' : tolf < total (F x y) ->
    fst (fst (J x y)) * u + snd (fst (J x y)) * v = - fst (F x y) -> fst (snd (J x y)) * u + snd (snd (J x y)) * v = - snd (F x y) ->
    tolx < Rabs u + Rabs v -> search F J tolx tolf k (x + u) (y + v) x' y' -> search F J tolx tolf (S k) x y x' y'.

(** The first argument may be -v. *)
Definition flag (pre : list (argument reals)) (a : argument reals) : Prop := (pre = [] /\ is_v a = false) \/ exists v, pre = [v] /\ is_v v = true.
