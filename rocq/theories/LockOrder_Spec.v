(** C49: what deadlock and correct use of a lock ordering group mean. *)
From Coq Require Import List ZArith Bool Relations.
From Verif Require Import Common LockOrder_Model.
Import ListNotations.
Local Open Scope Z_scope.

(** Thread t is blocked on a mutex that thread u holds. *)
Definition waits_for (s : state) (t u : nat) : Prop :=
  exists l push, ph (threads s t) = Locking l push /\ holder s (l_mutex l) = Some u.
(** Thread t is blocked. *)
Definition blocked (s : state) (t : nat) : Prop := exists u, waits_for s t u.
(** Some threads wait for each other in a cycle. *)
Definition deadlock (s : state) : Prop := exists t, clos_trans nat (waits_for s) t t.

(** Correct use: every mutex always has the same level; a thread calls prepare() before its
    first lock; a lock object is not temporarily unlocked while it is already unlocked. *)
Definition already_unlocked (x : thread) (p : nat) : Prop := exists l, In (SUnlock p l) (scopes x).
Definition correct_use (level : nat -> Z) (s : state) (c : choice) : Prop :=
  match c with
  | CLock t m lv => lv = level m /\ cur_level (threads s t) <> None
  | CUnlock t p => ~ already_unlocked (threads s t) p
  | _ => True
  end.
Inductive reachable (level : nat -> Z) : state -> Prop :=
| reach_init : reachable level init
| reach_step : forall s c s', reachable level s -> correct_use level s c -> step s c = Ok s' -> reachable level s'.
