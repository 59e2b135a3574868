(** Specification of the logarithmic histogram over the real numbers. *)
From Coq Require Import List ZArith Reals Bool.
Import ListNotations.
Local Open Scope R_scope.

Definition rcount (p : R -> bool) (l : list R) : Z := Z.of_nat (length (filter p l)).
Definition rtotal (p : R -> bool) (l : list (R * R)) : R :=
  fold_right (fun x t => (if p (fst x) then snd x else 0) + t) 0 l.
Definition rle (x y : R) : bool := if Rle_dec x y then true else false.
(** lo <= x < hi *)
Definition rrange (lo hi x : R) : bool := rle lo x && negb (rle hi x).

(** Left end of bin [i]: the ends form a geometric progression from [s] that grows by the
    factor exp (1/c) per bin. *)
Definition ledge (s c : R) (i : nat) : R := s * exp (INR i / c).
Definition lbin (s c : R) (i : nat) : R -> bool := rrange (ledge s c i) (ledge s c (S i)).
(** The same with the first and the last of [n] bins open-ended. *)
Definition lbin_clamped (s c : R) (n i : nat) (x : R) : bool :=
  ((i =? 0)%nat || rle (ledge s c i) x) && ((S i =? n)%nat || negb (rle (ledge s c (S i)) x)).
