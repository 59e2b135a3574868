(** Specification of Stats: an object stands for the samples it has seen. *)
From Coq Require Import List ZArith QArith.
From Verif Require Import Arith.
Import ListNotations.
Local Open Scope Q_scope.

Definition qsum (l : list Q) : Q := fold_right Qplus 0 l.
Definition qsumsq (l : list Q) : Q := qsum (map (fun x => x * x) l).
Definition qlen (l : list Q) : Q := inject_Z (Z.of_nat (length l)).
Definition qmean (l : list Q) : Q := qsum l / qlen l.
(** Mean squared deviation from the mean. *)
Definition qvar (l : list Q) : Q := qsum (map (fun x => (x - qmean l) * (x - qmean l)) l) / qlen l.

(** [m] is the minimum (maximum) of [l]; plus (minus) infinity when there are no samples. *)
Definition is_min (m : xnum) (l : list Q) : Prop :=
  (l = [] /\ m = Inf false) \/ (exists q, m = Fin q /\ In q l /\ forall x, In x l -> q <= x).
Definition is_max (m : xnum) (l : list Q) : Prop :=
  (l = [] /\ m = Inf true) \/ (exists q, m = Fin q /\ In q l /\ forall x, In x l -> x <= q).

(** A finite value equal to [q] as a number. *)
Definition fin_eq (x : xnum) (q : Q) : Prop := exists p, x = Fin p /\ p == q.

(** Programs over a family of objects, addressed by number; [X] is the type of samples. *)
Inductive op (X : Type) : Type :=
| OAdd (i : nat) (x : X)          (* obj[i].add(x) *)
| OMerge (i j : nat)              (* obj[i].add(obj[j]), i = j allowed *)
| OReset (i : nat)                (* obj[i].reset() *)
.
Arguments OAdd {X}.
Arguments OMerge {X}.
Arguments OReset {X}.
Definition set_nth {S} (f : nat -> S) (i : nat) (s : S) : nat -> S := fun k => if Nat.eqb k i then s else f k.
(** The samples each object stands for. *)
Definition samples_step {X} (f : nat -> list X) (o : op X) : nat -> list X :=
  match o with
  | OAdd i x => set_nth f i (f i ++ [x])
  | OMerge i j => set_nth f i (f i ++ f j)
  | OReset i => set_nth f i []
  end.
Definition samples {X} (ops : list (op X)) : nat -> list X := fold_left samples_step ops (fun _ => []).

(** Sums of integers. *)
Definition zsum (l : list Z) : Z := fold_right Z.add 0%Z l.
Definition zsumsq (l : list Z) : Z := zsum (map (fun x => x * x)%Z l).
Definition zsumabs (l : list Z) : Z := zsum (map Z.abs l).
