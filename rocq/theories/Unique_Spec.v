(** Specification of HashUnique: a finite set of keys, as the list of its members.
    Independent of the implementation model. *)
From Coq Require Import List Arith NArith Permutation Bool.
From Verif Require Import Common.
Import ListNotations.

Inductive uop (K : Type) : Type :=
| UExists (k : K)
| UAdd (k : K)
| UAddOrReplace (k : K)
| URemove (k : K) (must : bool)
| UClear
| UReserve (n : N)
| USize
| UWalk.                              (* for(i = begin(); i != end(); ++i) *)
Inductive uout (K : Type) : Type := UUnit | UBool (b : bool) | UNum (n : nat) | UKeys (l : list K).
Arguments UExists {K}. Arguments UAdd {K}. Arguments UAddOrReplace {K}. Arguments URemove {K}. Arguments UClear {K}.
Arguments UReserve {K}. Arguments USize {K}. Arguments UWalk {K}.
Arguments UUnit {K}. Arguments UBool {K}. Arguments UNum {K}. Arguments UKeys {K}.

Section Spec.
Context {K : Type}.
Variable keq : K -> K -> bool.        (* KEqual *)

Definition member (k : K) (s : list K) : bool := existsb (keq k) s.
(** The set, and whether nothing was added since construction or clear (reserve
    is allowed only then). HashTable.hpp:103-108: a target chain length of 2. *)
Record uset := mk_us { us_set : list K; us_virgin : bool }.
Definition insert (k : K) (s : uset) : uset := if member k (us_set s) then s else mk_us (k :: us_set s) false.

Definition uspec (s : uset) (o : uop K) : res (uset * uout K) :=
  match o with
  | UExists k => Ok (s, UBool (member k (us_set s)))
  | UAdd k => Ok (insert k s, UBool (negb (member k (us_set s))))
  | UAddOrReplace k => Ok (insert k s, UBool (member k (us_set s)))
  | URemove k must => if member k (us_set s) then Ok (mk_us (filter (fun x => negb (keq k x)) (us_set s)) (us_virgin s), UUnit)
                      else if must then Abort else Ok (s, UUnit)
  | UClear => Ok (mk_us [] true, UUnit)
  | UReserve n => if us_virgin s && N.leb (n / 2) 141650939 then Ok (s, UUnit) else Abort
  | USize => Ok (s, UNum (length (us_set s)))
  | UWalk => Ok (s, UKeys (us_set s))
  end.
(** Outcomes, cut at the first abort. *)
Fixpoint uspec_run (s : uset) (ops : list (uop K)) : list (res (uout K)) :=
  match ops with
  | [] => []
  | o :: r => match uspec s o with
              | Ok (s', out) => Ok out :: uspec_run s' r
              | x => [match x with Abort => Abort | UB => UB | _ => Fuel end]
              end
  end.
(** Equal observations, listings in any order. *)
Definition uagree (a b : res (uout K)) : Prop :=
  match a, b with
  | Ok (UKeys l), Ok (UKeys l') => Permutation l l'
  | Ok x, Ok y => x = y
  | Abort, Abort => True
  | _, _ => False
  end.
End Spec.
