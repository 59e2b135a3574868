(** Model of include/Lintel/RandomBase.hpp and of MT_random_shuffle
    (include/Lintel/MersenneTwisterRandom.hpp:90-107), over any generator of 32-bit
    words; the floating point members are in RandomDouble_Model.v. *)
From Coq Require Import List Arith ZArith Lia Bool.
From Verif Require Import Common.
Import ListNotations.
Local Open Scope Z_scope.

Section random.
Context {G : Type}.
(** the randInt() of the base class R (RandomBase.hpp:33-35) *)
Variable next : G -> res (Z * G).

(** RandomBase.hpp:37-43 *)
Definition randLongLong (g : G) : res (Z * G) :=
  let! (a, g) := next g in
  let ret := Z.shiftl a 32 mod 2 ^ 64 in
  let! (b, g) := next g in
  Ok (Z.lor ret b, g).
(** RandomBase.hpp:47-49; % 0 is undefined *)
Definition randIntMax (max : Z) (g : G) : res (Z * G) :=
  let! (r, g) := next g in
  if max =? 0 then UB else Ok (r mod max, g).
(** RandomBase.hpp:51-62. [umax] is UINT32_MAX, which is 2^32-1 when <stdint.h> defines
    it and the fallback (0xFFFFFFF) of RandomBase.hpp:7-9 otherwise. One draw: the result
    of an accepted one. *)
Definition accept (umax max res : Z) : option Z :=
  if (umax - max) mod 2 ^ 32 >? res then Some (res mod max)
  else if umax / max * max >? res then Some (res mod max)
  else None.
Fixpoint randIntUnbiased (umax max : Z) (fuel : nat) (g : G) : res (Z * G) :=
  match fuel with
  | O => Fuel
  | S fuel =>
      let! (r, g) := next g in
      if max =? 0 then UB
      else match accept umax max r with Some v => Ok (v, g) | None => randIntUnbiased umax max fuel g end
  end.
(** RandomBase.hpp:97-99 *)
Definition randBool (g : G) : res (bool * G) :=
  let! (r, g) := next g in Ok (negb (Z.land r 1 =? 0), g).
(** RandomBase.hpp:16,101-113: the generator, boolShift and boolState *)
Record fast := mk_fast { f_gen : G; boolShift : Z; boolState : Z }.
Definition fast_new (g : G) : fast := mk_fast g 0 0.
Definition randBoolFast (s : fast) : res (bool * fast) :=
  let! (g, sh, st) :=
    (if boolShift s =? 0 then
       let! (x, g) := randLongLong (f_gen s) in Ok (g, 64, x)
     else Ok (f_gen s, boolShift s, boolState s)) in
  Ok (negb (Z.land st 1 =? 0), mk_fast g ((sh - 1) mod 2 ^ 8) (Z.shiftr st 1)).
Fixpoint fast_bools (n : nat) (s : fast) : res (list bool * fast) :=
  match n with
  | O => Ok ([], s)
  | S n => let! (b, s) := randBoolFast s in let! (l, s) := fast_bools n s in Ok (b :: l, s)
  end.

Section shuffle.
Context {A : Type}.
(** std::iter_swap of two elements of the range *)
Definition iter_swap (l : list A) (i j : nat) : res (list A) :=
  let! x := get l i in
  let! y := get l j in
  let! l := put l i y in
  put l j x.
(** MersenneTwisterRandom.hpp:103-106: [n] turns from index [i] on. The distance is
    converted to uint32_t. *)
Fixpoint shuffle_loop (n i : nat) (l : list A) (g : G) : res (list A * G) :=
  match n with
  | O => Ok (l, g)
  | S n =>
      let! (rval, g) := randIntMax ((Z.of_nat i + 1) mod 2 ^ 32) g in
      let! l := iter_swap l i (Z.to_nat rval) in
      shuffle_loop n (S i) l g
  end.
(** MersenneTwisterRandom.hpp:97-107 *)
Definition MT_random_shuffle (l : list A) (g : G) : res (list A * G) :=
  match l with
  | [] => Ok (l, g)
  | _ :: r => shuffle_loop (length r) 1 l g
  end.
End shuffle.
End random.

(** A generator that hands out a given list of words: every behaviour of a generator,
    seen from its client. *)
Definition next_of (g : list Z) : res (Z * list Z) :=
  match g with [] => Fuel | r :: g => Ok (r, g) end.
