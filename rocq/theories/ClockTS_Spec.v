(** Specification vocabulary for the clocks of threads: over what is seen of a run. *)
From Coq Require Import List Arith Bool.
From Verif Require Import ClockTS_Model.
Import ListNotations.

(** Every call of perThread comes after a call of perThreadInit has returned. *)
Definition initialised_first (tr : list event) : Prop :=
  forall a b t, tr = a ++ EGet t :: b -> exists u, In (EInitDone u) a.
(** The system never fails to store a value. *)
Definition stores_work (tr : list event) : Prop := forall t, ~ In (ESetFails t) tr.
Definition calibrations (tr : list event) : nat :=
  length (filter (fun e => match e with ECalibrate _ => true | _ => false end) tr).
