(** The textbook autocovariance estimator at a lag. *)
From Coq Require Import List Arith ZArith QArith.
From Verif Require Import Common Arith Stats_Spec Series_Model.
Import ListNotations.
Local Open Scope Q_scope.

Definition acov (l : list Q) (lag : nat) : Q :=
  let m := qmean l in
  qsum (map (fun t => (nth t l 0 - m) * (nth (t + lag) l 0 - m)) (seq 0 (length l - lag))) / qlen l.

(** Histories with rational samples, and the samples since the last reset. *)
Inductive qop : Type := QAdd (v : Q) | QReset.
Definition to_op (o : qop) : seop exact := match o with QAdd v => SeAdd (Fin v : exact) | QReset => SeReset end.
Definition held_step (l : list Q) (o : qop) : list Q := match o with QAdd v => l ++ [v] | QReset => [] end.
Definition held (ops : list qop) : list Q := fold_left held_step ops [].
Definition adds (ops : list qop) : nat := length (filter (fun o => match o with QAdd _ => true | QReset => false end) ops).
