(** Specification of StatsSeriesGroup and StatsRW. *)
From Coq Require Import List Arith ZArith QArith Qround.
From Verif Require Import Common Arith Group_Model.
Import ListNotations.

(** ** StatsSeriesGroup: samples are (value, time) pairs of rationals. *)
Notation sample_q := (Q * Q)%type.
(** The number of the interval of length [i], counted from [start], that contains [t]. *)
Definition interval_no (i start t : Q) : nat := Z.to_nat (Qfloor ((t - start) / i)).
Definition inj (s : sample_q) : num exact * num exact := (Fin (fst s), Fin (snd s)).
(** The samples that belong to interval [j], in the order they came. *)
Definition in_interval (i start : Q) (l : list sample_q) (j : nat) : list sample_q :=
  filter (fun s => Nat.eqb (interval_no i start (snd s)) j) l.
(** Times that never go back, starting from [from]. *)
Fixpoint ordered (from : Q) (l : list sample_q) : Prop :=
  match l with
  | [] => True
  | s :: r => (from <= snd s)%Q /\ ordered (snd s) r
  end.

(** ** StatsRW: which samples each of the three objects is meant to hold. *)
Section RW.
Context {A : arith}.
Definition vt (x : sample A) : A * A := (s_value x, s_time x).
Definition is_mode (m : modeT) (x : sample A) : bool :=
  match m, s_mode x with Read, Read | Write, Write | All, All => true | _, _ => false end.
Definition of_mode (m : modeT) (l : list (sample A)) : list (A * A) := map vt (filter (is_mode m) l).
(** the reads and writes in order, until the first explicit All sample *)
Definition has_all (l : list (sample A)) : bool := existsb (is_mode All) l.
Definition combined (l : list (sample A)) : list (A * A) :=
  if has_all l then of_mode All l else map vt l.
(** the samples before the first explicit All *)
Fixpoint before_all (l : list (sample A)) : list (sample A) :=
  match l with
  | [] => []
  | x :: r => if is_mode All x then [] else x :: before_all r
  end.

(** An object given samples one after the other; [p_feed] and [p_reset] for a
    pointer that may be NULL. *)
Fixpoint o_feed (fuel : nat) (o : obj A) (l : list (A * A)) : res (obj A) :=
  match l with
  | [] => Ok o
  | (v, t) :: r => let! o := o_add A fuel o v t in o_feed fuel o r
  end.
Definition p_feed (fuel : nat) (o : option (obj A)) (l : list (A * A)) : res (option (obj A)) :=
  match o with None => Ok None | Some o => let! o := o_feed fuel o l in Ok (Some o) end.
Definition p_reset (o : option (obj A)) : option (obj A) := match o with None => None | Some o => Some (o_reset A o) end.
End RW.
