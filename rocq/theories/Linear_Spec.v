(** Specification of LeastSquares and Matrix, in rational numbers. *)
From Coq Require Import List ZArith QArith.
From Verif Require Import Common Arith Stats_Spec Linear_Model.
Import ListNotations.
Local Open Scope Q_scope.

(** A data point (x, y, weight). *)
Definition qpoint : Type := Q * Q * Q.
Definition to_point (p : qpoint) : point exact := let '(x, y, w) := p in mkPoint (A := exact) (Fin x) (Fin y) (Fin w).

(** Weighted squared vertical error of the line a + b x. *)
Definition error (a b : Q) (l : list qpoint) : Q :=
  qsum (map (fun p => let '(x, y, w) := p in w * ((y - (a + b * x)) * (y - (a + b * x)))) l).

(** The entries of a matrix: [m] has [nr] rows, [nc] columns and entries [f]. *)
Definition entries (m : matrix exact) (nr nc : nat) (f : nat -> nat -> Q) : Prop :=
  nrows m = nr /\ ncols m = nc /\ length (data m) = (nr * nc)%nat /\
  forall i j, (i < nr)%nat -> (j < nc)%nat -> exists x, m_get exact m i j = Ok x /\ fin_eq x (f i j).

(** sum over j < nc of f j * x j *)
Definition dot (nc : nat) (f x : nat -> Q) : Q := qsum (map (fun j => f j * x j) (seq 0 nc)).
(** [x] solves the homogeneous system. *)
Definition solves (nr nc : nat) (f : nat -> nat -> Q) (x : nat -> Q) : Prop := forall i, (i < nr)%nat -> dot nc (f i) x == 0.
(** [x] solves A x = b where the last column, number n, is b. *)
Definition solves_aug (n : nat) (f : nat -> nat -> Q) (x : nat -> Q) : Prop := forall i, (i < n)%nat -> dot n (f i) x == f i n.
