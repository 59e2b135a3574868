(** Specification of StringId: the strings seen so far, in order of first
    appearance, numbered from 1. *)
From Coq Require Import List Arith NArith.
From Verif Require Import Common.
Import ListNotations.

(** Operations of a client, and what it sees. *)
Inductive sop (A : Type) : Type := GetId (s : A) | GetString (id : N) | MaxId.
Arguments GetId {A} s.
Arguments GetString {A} id.
Arguments MaxId {A}.
Inductive sout (A : Type) : Type := Id (n : N) | Str (s : A).
Arguments Id {A} n.
Arguments Str {A} s.

Section spec.
Context {A : Type}.
Variable eq_dec : forall a b : A, {a = b} + {a <> b}.

(** Position of a string in the list of known strings. *)
Fixpoint position (s : A) (known : list A) : option nat :=
  match known with
  | [] => None
  | x :: r => if eq_dec s x then Some 0 else option_map S (position s r)
  end.
Definition spec_step (known : list A) (o : sop A) : res (list A * sout A) :=
  match o with
  | GetId s => match position s known with
               | Some i => Ok (known, Id (N.of_nat (i + 1)))
               | None => Ok (known ++ [s], Id (N.of_nat (length known + 1)))
               end
  | GetString id => match id with
                    | 0%N => Abort
                    | _ => match nth_error known (N.to_nat id - 1) with Some s => Ok (known, Str s) | None => Abort end
                    end
  | MaxId => Ok (known, Id (N.of_nat (length known + 1)))
  end.
End spec.
