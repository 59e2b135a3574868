(** Model of include/Lintel/Tuples.hpp. A tuple is the list of its coordinates,
    which all have one type here (the code lets each have its own); a bitset is a
    list of booleans of the same length. x > y is taken as y < x. *)
From Coq Require Import List Bool ZArith.
From Verif Require Import Common HashFns_Model.
Import ListNotations.
Local Open Scope nat_scope.

Section tuples.
Context {A : Type}.
Variables eqb ltb : A -> A -> bool.
Variable hash : A -> Z.   (* lintel::hash of a coordinate *)

(** Tuples.hpp:35-51, hash of a plain tuple. *)
Fixpoint tuple_hash (v : list A) : Z :=
  match v with
  | [] => 0%Z
  | [x] => hash x
  | x :: y :: r => BobJenkinsHashMix3 (hash x) (hash y) (tuple_hash r)
  end.

(** std::bitset::operator[] *)
Definition bit (any : list bool) (pos : nat) : bool := nth pos any false.
Definition any_hash : Z := 0x8bc74d0b%Z.

(** Tuples.hpp:87-107 *)
Fixpoint bitset_any_hash (v : list A) (any : list bool) (cur_pos : nat) : Z :=
  match v with
  | [] => 0%Z
  | [x] => if bit any cur_pos then any_hash else hash x
  | x :: y :: r =>
    let a := if bit any cur_pos then any_hash else hash x in
    let b := if bit any (cur_pos + 1) then any_hash else hash y in
    let c := bitset_any_hash r any (cur_pos + 2) in
    BobJenkinsHashMix3 a b c
  end.
(** Tuples.hpp:116-130 *)
Fixpoint bitset_any_equal (lhs rhs : list A) (any : list bool) (cur_pos : nat) : bool :=
  match lhs, rhs with
  | x :: l, y :: r => if bit any cur_pos || eqb x y then bitset_any_equal l r any (cur_pos + 1) else false
  | _, _ => true
  end.
(** Tuples.hpp:132-158 *)
Fixpoint bitset_any_strict_less_than (lhs rhs : list A) (any_lhs any_rhs : list bool) (cur_pos : nat) : bool :=
  match lhs, rhs with
  | x :: l, y :: r =>
    let rest := bitset_any_strict_less_than l r any_lhs any_rhs (cur_pos + 1) in
    if negb (bit any_lhs cur_pos) && negb (bit any_rhs cur_pos) then
      if ltb x y then true else if ltb y x then false else rest
    else if negb (bit any_lhs cur_pos) && bit any_rhs cur_pos then true
    else if bit any_lhs cur_pos && negb (bit any_rhs cur_pos) then false
    else rest
  | _, _ => false
  end.
(** Tuples.hpp:229-250 BitsetAnyTuple and 289-292 its hashType. (BitsetAnyTupleHash,
    253-257, names a member `used` that does not exist and is not modelled.) *)
Record bitset_any_tuple : Type := { data : list A; any : list bool }.
Fixpoint bits_equal (a b : list bool) : bool :=
  match a, b with [], [] => true | x :: a', y :: b' => Bool.eqb x y && bits_equal a' b' | _, _ => false end.
Definition bat_equal (l r : bitset_any_tuple) : bool :=
  if negb (bits_equal (any l) (any r)) then false else bitset_any_equal (data l) (data r) (any l) 0.
Definition bat_less (l r : bitset_any_tuple) : bool :=
  bitset_any_strict_less_than (data l) (data r) (any l) (any r) 0.
Definition bat_hash (v : bitset_any_tuple) : Z := bitset_any_hash (data v) (any v) 0.

(** Tuples.hpp:181-209 AnyPair, and 279-287 its hashType. *)
Record any_pair : Type := { pany : bool; pval : A }.
Definition ap_equal (l r : any_pair) : bool :=
  if negb (Bool.eqb (pany l) (pany r)) then false
  else if pany l then true else eqb (pval l) (pval r).
Definition ap_less (l r : any_pair) : res bool :=
  if pany l && pany r then Ok false
  else if pany l && negb (pany r) then Ok false
  else if negb (pany l) && pany r then Ok true
  else if negb (pany l) && negb (pany r) then Ok (ltb (pval l) (pval r))
  else Abort.
Definition ap_hash (v : any_pair) : Z := if pany v then any_hash else hash (pval v).
End tuples.
Arguments bitset_any_tuple A : clear implicits.
Arguments any_pair A : clear implicits.
(** Tuples of AnyPair: boost::tuples operator== and operator<, coordinate by coordinate. *)
Fixpoint apt_equal {A} (eqb : A -> A -> bool) (l r : list (any_pair A)) : bool :=
  match l, r with
  | x :: l', y :: r' => ap_equal eqb x y && apt_equal eqb l' r'
  | _, _ => true
  end.
Fixpoint apt_less {A} (ltb : A -> A -> bool) (l r : list (any_pair A)) : res bool :=
  match l, r with
  | x :: l', y :: r' =>
    let! a := ap_less ltb x y in
    if a then Ok true else
    let! b := ap_less ltb y x in
    if b then Ok false else apt_less ltb l' r'
  | _, _ => Ok false
  end.
(** Tuples.hpp:267-277 *)
Definition assign {A} (from : list A) : list (any_pair A) := map (fun x => {| pany := false; pval := x |}) from.
