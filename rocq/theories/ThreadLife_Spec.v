(** Specification vocabulary for the life of threads: everything is read off the history of what was
    seen, newest first. *)
From Coq Require Import List Arith ZArith Bool.
From Verif Require Import Common ThreadLife_Model.
Import ListNotations.

(** A schedule [evs] (newest event first) leads from the start to state [s] with history [h]. *)
Inductive leads : list event -> state -> list seen -> Prop :=
| leads_nil : leads [] state0 []
| leads_step evs s h e s' x : leads evs s h -> step s e = Next s' x -> leads (e :: evs) s' (x :: h).

(** The thread that was started by [o] and not joined yet. *)
Fixpoint running (o : nat) (h : list seen) : option nat :=
  match h with
  | [] => None
  | SStarted o' t _ :: h => if o' =? o then Some t else running o h
  | SJoined o' _ :: h => if o' =? o then None else running o h
  | _ :: h => running o h
  end.
(** What run() returned in thread [t]. *)
Fixpoint returned (t : nat) (h : list seen) : option Z :=
  match h with
  | [] => None
  | SReturned t' v :: h => if t' =? t then Some v else returned t h
  | _ :: h => returned t h
  end.
(** How often thread [t] entered run(). *)
Fixpoint begins (t : nat) (h : list seen) : nat :=
  match h with
  | [] => 0
  | SBegan t' :: h => if t' =? t then S (begins t h) else begins t h
  | _ :: h => begins t h
  end.
(** Thread [t] is in run() of [o]. *)
Definition inside (o t : nat) (h : list seen) : Prop :=
  (exists m, In (SStarted o t m) h) /\ begins t h <> 0 /\ returned t h = None.
(** The object was made and not destroyed. *)
Definition alive (o : nat) (h : list seen) : Prop := (exists ns, In (SNew o ns) h) /\ ~ In (SDestroyed o) h.
(** The signal mask the client last set for itself. *)
Fixpoint client_mask (h : list seen) : sigset :=
  match h with [] => 0%Z | SMask m :: _ => m | _ :: h => client_mask h end.

(** What a client may do after [h]: it calls existing objects, keeps threads joinable, signals threads
    that it has not joined, and joins before it destroys. *)
Definition polite (h : list seen) (e : event) : Prop :=
  match e with
  | New _ | Begin _ | Finish _ _ | SetMask _ => True
  | SetDetached o b => alive o h /\ b = false
  | Start o _ | Join o => alive o h
  | Kill o _ => alive o h /\ running o h <> None
  | Destroy o => alive o h /\ running o h = None
  end.
(** All events of a schedule are polite. *)
Inductive politely : list event -> state -> list seen -> Prop :=
| politely_nil : politely [] state0 []
| politely_step evs s h e s' x : politely evs s h -> polite h e -> step s e = Next s' x -> politely (e :: evs) s' (x :: h).
(** What setDetached last said about [o]. *)
Fixpoint detach_setting (o : nat) (h : list seen) : bool :=
  match h with
  | [] => false
  | SDetach o' b :: h => if o' =? o then b else detach_setting o h
  | _ :: h => detach_setting o h
  end.
(** The client sets real signal masks. *)
Definition masks_ok (h : list seen) : Prop := forall m, In (SMask m) h -> (0 <= m < 2 ^ 64)%Z.
