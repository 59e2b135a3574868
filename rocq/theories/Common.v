(** Shared vocabulary of the model: outcomes of C++ code. *)
From Coq Require Import List Arith NArith ZArith Lia Bool.
Import ListNotations.

(** Outcome of running a piece of the modelled C++ code.
    - [Ok a]   : normal return;
    - [Abort]  : an INVARIANT / SINVARIANT / FATAL_ERROR of
                 include/Lintel/AssertBoost.hpp fired (the program dies);
    - [UB]     : undefined behaviour (out-of-bounds index, read of
                 uninitialised memory, division by zero, ...);
    - [Fuel]   : the model's recursion bound was hit; never a behaviour of the
                 code, excluded by every theorem. *)
Inductive res (A : Type) : Type :=
| Ok (a : A)
| Abort
| UB
| Fuel.
Arguments Ok {A} a.
Arguments Abort {A}.
Arguments UB {A}.
Arguments Fuel {A}.

Definition bind {A B} (x : res A) (f : A -> res B) : res B :=
  match x with
  | Ok a => f a
  | Abort => Abort
  | UB => UB
  | Fuel => Fuel
  end.

Notation "'let!' x ':=' e 'in' f" := (bind e (fun x => f))
  (at level 200, x pattern, e at level 200, f at level 200, right associativity).

(** [v.at(i)]-like access: out of range is undefined behaviour. *)
Definition get {A} (l : list A) (i : nat) : res A :=
  match nth_error l i with Some a => Ok a | None => UB end.

(** Replace element [i]; the identity when [i] is out of range. *)
Fixpoint upd {A} (l : list A) (i : nat) (a : A) : list A :=
  match l, i with
  | [], _ => []
  | _ :: r, O => a :: r
  | x :: r, S i' => x :: upd r i' a
  end.

(** [v[i] = a]: out of range is undefined behaviour. *)
Definition put {A} (l : list A) (i : nat) (a : A) : res (list A) :=
  if i <? length l then Ok (upd l i a) else UB.

(** Assertion: INVARIANT(b, ...). *)
Definition invariant (b : bool) : res unit := if b then Ok tt else Abort.

(** Comparison of an observed run with a specified one. Runs stop at the first
    outcome that is not [Ok]. Where the specification says [UB] (the caller broke
    a documented precondition) nothing is claimed about the code. *)
Inductive conforms {A} : list (res A) -> list (res A) -> Prop :=
| conf_nil : conforms [] []
| conf_ok : forall a r s, conforms r s -> conforms (Ok a :: r) (Ok a :: s)
| conf_abort : conforms [Abort] [Abort]
| conf_misuse : forall r, conforms r [UB].

(** Run a list of operations, collecting the outcomes up to the first that is
    not [Ok]; and the final state when all are [Ok]. *)
Fixpoint run_ops {S O A} (step : S -> O -> res (S * A)) (s : S) (ops : list O) : list (res A) :=
  match ops with
  | [] => []
  | o :: r => match step s o with
              | Ok (s', a) => Ok a :: run_ops step s' r
              | Abort => [Abort]
              | UB => [UB]
              | Fuel => [Fuel]
              end
  end.
Fixpoint exec_ops {S O A} (step : S -> O -> res (S * A)) (s : S) (ops : list O) : res S :=
  match ops with
  | [] => Ok s
  | o :: r => let! (s', _) := step s o in exec_ops step s' r
  end.
