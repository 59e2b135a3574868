(** C48 in terms of the threads' positions. *)
From Coq Require Import List ZArith Bool.
From Verif Require Import SpinLock_Model.
Import ListNotations.
Local Open Scope Z_scope.

(** Thread t is between a completed lock() and its unlock(). *)
Definition inside (s : state) (t : nat) : Prop :=
  match at_pc (threads s t) with Crit | CritW _ => True | _ => False end.
Definition mutual_exclusion (s : state) : Prop := forall t u, inside s t -> inside s u -> t = u.
(** A thread inside sees all increments made so far. *)
Definition sees_all_increments (s : state) : Prop :=
  forall t, inside s t -> load s (threads s t) LData = increments s.
(** When all stores have reached memory, none is lost. *)
Definition no_increment_lost (s : state) : Prop :=
  (forall t, buf (threads s t) = []) -> data s = increments s.
