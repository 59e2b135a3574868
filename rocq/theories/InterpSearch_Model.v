(** Model of include/Lintel/unstable/InterpolationSearch.hpp. Iterators are
    indices into the range; dereferencing outside it is UB. The DEBUG_ checks are
    not in the model (they exist in debug builds only). *)
From Coq Require Import List Arith Bool ZArith.
From Verif Require Import Common Double64.
Import ListNotations.

Section search.
Context {A : Type}.
Variable less : A -> A -> bool.                       (* comparer *)
Variable estimator : A -> A -> A -> nat -> res nat.    (* v, first, last, last_pos *)
Variables interpolation_steps binary_steps binary_search_below_length : nat.
Variable l : list A.
Variable v : A.

(** comparer of the element at an iterator and v. *)
Definition lt_at (i : nat) : res bool := let! x := get l i in Ok (less x v).
(** The iterator one before. *)
Definition before (i : nat) : res nat := match i with O => UB | S j => Ok j end.

(** How a phase ends: the function returns, or the search goes on in [begin,end). *)
Inductive exit : Type := Return (i : nat) | Go (begin end_ len : nat).

(** InterpolationSearch.hpp:83-109 *)
Fixpoint interpolate (steps begin end_ len : nat) : res exit :=
  match steps with
  | O => Ok (Go begin end_ len)
  | S steps' =>
    if 0 <? len then
      let! first := get l begin in
      let! e := before end_ in
      let! last := get l e in
      let! estimated_offset := estimator v first last (len - 1) in
      let estimated_pos := begin + estimated_offset in
      let! c := lt_at estimated_pos in
      if c then
        let begin := estimated_pos + 1 in
        let! c := lt_at begin in
        if negb c then Ok (Return begin)
        else interpolate steps' begin end_ (len - (estimated_offset + 1))
      else
        let! p := before estimated_pos in
        let! c := lt_at p in
        if c then Ok (Return estimated_pos)
        else interpolate steps' begin estimated_pos estimated_offset
    else Ok (Go begin end_ len)
  end.

(** InterpolationSearch.hpp:119-135 *)
Fixpoint bisect (steps begin end_ len : nat) (adjusted_begin adjusted_end : bool) : res (nat * nat * nat * bool * bool) :=
  match steps with
  | O => Ok (begin, end_, len, adjusted_begin, adjusted_end)
  | S steps' =>
    if 0 <? len then
      let estimated_offset := Nat.div2 len in
      let estimated_pos := begin + estimated_offset in
      let! c := lt_at estimated_pos in
      if c then bisect steps' (estimated_pos + 1) end_ (len - (estimated_offset + 1)) true adjusted_end
      else bisect steps' begin estimated_pos estimated_offset adjusted_begin true
    else Ok (begin, end_, len, adjusted_begin, adjusted_end)
  end.

(** std::lower_bound on [begin, begin+len), InterpolationSearch.hpp:117. *)
Fixpoint std_lower_bound (fuel begin len : nat) : res nat :=
  if 0 <? len then
    match fuel with
    | O => Fuel
    | S f =>
      let half := Nat.div2 len in
      let! c := lt_at (begin + half) in
      if c then std_lower_bound f (begin + half + 1) (len - half - 1)
      else std_lower_bound f begin half
    end
  else Ok begin.

(** InterpolationSearch.hpp:82-148 *)
Fixpoint search (fuel begin end_ len : nat) : res nat :=
  if 0 <? len then
    match fuel with
    | O => Fuel
    | S f =>
      let! x := interpolate interpolation_steps begin end_ len in
      match x with
      | Return i => Ok i
      | Go begin end_ len =>
        if len =? 0 then Ok begin
        else if len <=? binary_search_below_length then std_lower_bound len begin len
        else
          let! (begin, end_, len, adjusted_begin, adjusted_end) := bisect binary_steps begin end_ len false false in
          let! c := (if adjusted_begin then lt_at begin else Ok true) in
          if negb c then Ok begin
          else
            let! c := (if adjusted_end then let! e := before end_ in lt_at e else Ok false) in
            if c then Ok end_
            else search f begin end_ len
      end
    end
  else Ok begin.

(** InterpolationSearch.hpp:57-81, on the whole range. *)
Definition interpolationLowerBound (fuel : nat) : res nat :=
  let n := length l in
  if n =? 0 then Ok 0
  else
    let! c := lt_at 0 in
    if c then
      let! e := before n in
      let! c := lt_at e in
      if c then Ok n else search fuel 0 n n
    else Ok 0.
End search.

(** InterpolationSearch.hpp:37-47, EstimateOffset<uint64_t>; integers are taken
    modulo 2^64 and converted to double where the code does. *)
Definition estimate (diff range : Z) (last_pos : nat) : res nat :=
  let relative_pos := ddiv (of_Z diff) (of_Z range) in
  let! r := to_unsigned 64 (dmul relative_pos (of_Z (Z.of_nat last_pos))) in
  Ok (Z.to_nat r).
Definition estimate_u64 (v first last : Z) (last_pos : nat) : res nat :=
  estimate ((v - first) mod 2 ^ 64)%Z ((last - first) mod 2 ^ 64)%Z last_pos.
(** EstimateOffset<int64_t>: the differences are computed in int64_t, where
    overflow is undefined; the range is then made unsigned. *)
Definition int64_sub (x y : Z) : res Z :=
  if ((- 2 ^ 63 <=? x - y) && (x - y <? 2 ^ 63))%Z then Ok (x - y)%Z else UB.
Definition estimate_i64 (v first last : Z) (last_pos : nat) : res nat :=
  let! range := int64_sub last first in
  let! diff := int64_sub v first in
  estimate diff (range mod 2 ^ 64)%Z last_pos.
(** InterpolationSearch.hpp:154-158, template arguments <2,4,256>. *)
Definition lowerBound_u64 (l : list Z) (v : Z) : res nat :=
  interpolationLowerBound Z.ltb estimate_u64 2 4 256 l v (length l).
Definition lowerBound_i64 (l : list Z) (v : Z) : res nat :=
  interpolationLowerBound Z.ltb estimate_i64 2 4 256 l v (length l).
