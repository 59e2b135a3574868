(** Specification of scoped locks, on what happened in a run (the earliest first). *)
From Coq Require Import List Arith Bool.
From Verif Require Import Scoped_Model.
Import ListNotations.

(** Who holds mutex [m] after the events. *)
Definition holds (l : list event) (m : nat) : option nat :=
  fold_left (fun h e => match e with
                        | Locked t m' => if m' =? m then Some t else h
                        | Unlocked _ m' => if m' =? m then None else h
                        | Acted _ _ => h
                        end) l None.
(** A mutex is locked only when nobody holds it and unlocked only by its holder. *)
Definition exclusive (l : list event) : Prop := forall before e after, l = before ++ e :: after ->
  match e with
  | Locked t m => holds before m = None
  | Unlocked t m => holds before m = Some t
  | Acted _ _ => True
  end.
(** In [c], action [k] occurs only inside of scopes with a lock of [m]. *)
Fixpoint guarded (m k : nat) (c : code) : Prop :=
  match c with
  | Act j => j <> k
  | Skip | Throw => True
  | Seq a b | TryCatch a b => guarded m k a /\ guarded m k b
  | Scope m' b => m' = m \/ guarded m k b
  end.
