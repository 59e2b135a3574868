(** Specification of the uniform histogram (exact arithmetic): which interval a bin stands
    for and which samples it counts. *)
From Coq Require Import List ZArith QArith.
Import ListNotations.
Local Open Scope Q_scope.

Definition zcount (p : Q -> bool) (l : list Q) : Z := Z.of_nat (length (filter p l)).
(** lo <= x < hi *)
Definition in_range (lo hi x : Q) : bool := Qle_bool lo x && negb (Qle_bool hi x).

(** Left end of bin [i] when the bins start at [lo] and are [w] wide. *)
Definition edge (lo w : Q) (i : nat) : Q := lo + inject_Z (Z.of_nat i) * w.

(** Bin [i] counts exactly the samples of its half-open interval. *)
Definition bins_count_intervals (lo w : Q) (bins : list Z) (l : list Q) : Prop :=
  forall i b, nth_error bins i = Some b -> b = zcount (in_range (edge lo w i) (edge lo w (S i))) l.

(** A fixed histogram lumps the samples below its range into the first bin and those above
    into the last. *)
Definition clamped (lo w : Q) (n : nat) (i : nat) (x : Q) : bool :=
  ((i =? 0)%nat || Qle_bool (edge lo w i) x) && ((S i =? n)%nat || negb (Qle_bool (edge lo w (S i)) x)).
Definition bins_count_clamped (lo w : Q) (bins : list Z) (l : list Q) : Prop :=
  forall i b, nth_error bins i = Some b -> b = zcount (clamped lo w (length bins) i) l.

Definition zlsum (l : list Z) : Z := fold_right Z.add 0%Z l.

(** Ranges of a histogram group: strictly increasing boundaries. *)
Fixpoint increasing (r : list Q) : Prop :=
  match r with
  | a :: ((b :: _) as r') => a < b /\ increasing r'
  | _ => True
  end.
Definition below (b x : Q) : bool := negb (Qle_bool b x).      (* x < b *)
Definition at_least (b x : Q) : bool := Qle_bool b x.          (* b <= x *)
