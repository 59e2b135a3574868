(** Model of the Tfrac conversions of include/Lintel/Clock.hpp:190-286, in IEEE doubles.
    A Tfrac is a 64-bit number of 2^-32 seconds. uint32_t arguments convert to double
    exactly. *)
From Coq Require Import ZArith Bool.
From Flocq Require Import Core BinarySingleNaN.
From Verif Require Import Common Double64.
Local Open Scope Z_scope.

(** ceil, then conversion to an unsigned integer of [bits] bits. The ceiling of a double
    is itself a double. *)
Definition ceil_unsigned (bits : Z) (x : double) : res Z :=
  if is_finite x then
    let z := Btrunc x in
    let z := if Bltb (of_Z z) x then z + 1 else z in
    if (0 <=? z) && (z <? 2 ^ bits) then Ok z else UB
  else UB.
(** floor, then conversion *)
Definition floor_to_unsigned (bits : Z) (x : double) : res Z :=
  if is_finite x then
    let z := Btrunc x in
    let z := if Bltb x (of_Z z) then z - 1 else z in
    if (0 <=? z) && (z <? 2 ^ bits) then Ok z else UB
  else UB.
(** round (halves away from zero), then conversion *)
Definition round_unsigned (bits : Z) (x : double) : res Z :=
  if is_finite x then
    let z := Btrunc x in
    let half := ddiv (of_Z 1) (of_Z 2) in
    let z := if Bleb half (dsub x (of_Z z)) then z + 1 else if Bleb half (dsub (of_Z z) x) then z - 1 else z in
    if (0 <=? z) && (z <? 2 ^ bits) then Ok z else UB
  else UB.

(** Clock.hpp:191 *)
Definition DBL_TFRAC_PER_SECOND : double := of_Z (2 ^ 32).
(** Clock.hpp:193-208. The INVARIANT aborts, also for NaN. *)
Definition secondsToTfrac (seconds : double) : res Z :=
  if negb (Bltb seconds (of_Z (2 ^ 32 - 1))) then Abort
  else
    let! sec_only := floor_to_unsigned 32 seconds in
    let! tfrac_lower := round_unsigned 32 (dmul (dsub seconds (of_Z sec_only)) DBL_TFRAC_PER_SECOND) in
    Ok ((Z.shiftl sec_only 32 + tfrac_lower) mod 2 ^ 64).
(** Clock.hpp:210-214 *)
Definition secMicroToTfrac (seconds micro_seconds : Z) : res Z :=
  let! l := ceil_unsigned 64 (ddiv (dmul (of_Z micro_seconds) DBL_TFRAC_PER_SECOND) (of_Z (10 ^ 6))) in
  Ok ((Z.shiftl seconds 32 mod 2 ^ 64 + l) mod 2 ^ 64).
(** Clock.hpp:216-220 *)
Definition secNanoToTfrac (seconds nano_seconds : Z) : res Z :=
  let! l := ceil_unsigned 64 (ddiv (dmul (of_Z nano_seconds) DBL_TFRAC_PER_SECOND) (of_Z (10 ^ 9))) in
  Ok ((Z.shiftl seconds 32 mod 2 ^ 64 + l) mod 2 ^ 64).
(** Clock.hpp:223-225 *)
Definition TfracToSec (t : Z) : Z := Z.shiftr t 32 mod 2 ^ 32.
(** Clock.hpp:228-234 *)
Definition TfracToMicroSec (t : Z) : res Z :=
  let low_bits := Z.land t (2 ^ 32 - 1) in
  floor_to_unsigned 32 (ddiv (dmul (of_Z low_bits) (of_Z (10 ^ 6))) DBL_TFRAC_PER_SECOND).
(** Clock.hpp:237-243 *)
Definition TfracToNanoSec (t : Z) : res Z :=
  let low_bits := Z.land t (2 ^ 32 - 1) in
  floor_to_unsigned 32 (ddiv (dmul (of_Z low_bits) (of_Z (10 ^ 9))) DBL_TFRAC_PER_SECOND).
(** Clock.hpp:245-247; the sum is far from the limits of long long *)
Definition TfracToTll (t : Z) : res Z :=
  let! u := TfracToMicroSec t in Ok (TfracToSec t * 1000000 + u).
(** Clock.hpp:250-253 *)
Definition TfracToDouble (t : Z) : double :=
  dadd (of_Z (TfracToSec t)) (ddiv (of_Z (Z.land t (2 ^ 32 - 1))) DBL_TFRAC_PER_SECOND).
(** Clock.hpp:256-258; negating the least int64_t overflows *)
Definition int64TfracToDouble (i : Z) : res double :=
  if 0 <=? i then Ok (TfracToDouble i)
  else if i =? - 2 ^ 63 then UB
  else Ok (Bopp (TfracToDouble (- i))).
(** Clock.hpp:260-265 *)
Definition TfracToStructTimeval (t : Z) : res (Z * Z) :=
  let! u := TfracToMicroSec t in Ok (TfracToSec t, u).
(** Clock.hpp:269-286; the conversion to int64_t wraps around, negating the least one
    is undefined *)
Definition TfracOffsetDouble (t : Z) (offset : double) : res Z :=
  let negate := Bltb offset (of_Z 0) in
  let! cooked := secondsToTfrac (if negate then Bopp offset else offset) in
  if negate && (cooked =? 2 ^ 63) then UB
  else Ok ((t + (if negate then - cooked else cooked)) mod 2 ^ 64).
