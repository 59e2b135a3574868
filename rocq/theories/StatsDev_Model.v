(** Model of the queries of Stats that take square roots (src/Stats.cpp, StatsBase and
    Stats), over IEEE doubles, and of the count of resets. std::sqrt is the correctly
    rounded square root IEEE 754 requires. The DEBUG_SINVARIANT(checkInvariants()) calls,
    which only test that the destructor has not run, are not modelled. *)
From Coq Require Import List ZArith.
From Flocq Require Import Core BinarySingleNaN.
From Verif Require Import Common Double64 Arith Stats_Spec Stats_Model.
Import ListNotations.
Local Open Scope Z_scope.

(** sqrt *)
Definition dsqrt (x : double) : double := Bsqrt mode_NE x.
(** The literal 1.96: the double nearest to it. *)
Definition c196 : double := binary_normalize 53 1024 prec_gt_0_53 prec_lt_emax_53 mode_NE 8827055269646172 (-52) false.
(** DBL_MAX *)
Definition dbl_max : double := binary_normalize 53 1024 prec_gt_0_53 prec_lt_emax_53 mode_NE (2 ^ 53 - 1) 971 false.

(** src/Stats.cpp:46-56 *)
Definition sd_stddev (s : stats ieee) : double :=
  let sigsq := st_variance ieee s in
  if Bleb sigsq (of_Z 0) then of_Z 0 else dsqrt sigsq.

(** src/Stats.cpp:150-156 *)
Definition sd_conf95 (s : stats ieee) : double :=
  if number s =? 0 then dbl_max
  else ddiv (dmul c196 (sd_stddev s)) (dsqrt (of_Z (number s))).

(** src/Stats.cpp:58-61 *)
Definition sd_relconf95 (s : stats ieee) : double := ddiv (sd_conf95 s) (st_mean ieee s).

(** The count of resets, an unsigned int: src/Stats.cpp:26-29 (the constructor of StatsBase,
    whose call of reset() is StatsBase::reset()), 41-44, 71-73, 78-86. *)
Definition base_reset (reset_count : Z) : Z := (reset_count + 1) mod 2 ^ 32.
Definition base_new : Z := let reset_count := base_reset 0 in 0.
Definition rc_new : Z := base_reset base_new.
Definition rc_step {X} (f : nat -> Z) (o : op X) : nat -> Z :=
  match o with
  | OAdd _ _ => f                                   (* src/Stats.cpp:88-101 *)
  | OMerge _ _ => f                                 (* src/Stats.cpp:103-114 *)
  | OReset i => set_nth f i (base_reset (f i))      (* src/Stats.cpp:78-86 *)
  end.
(** include/Lintel/Stats.hpp:83, resets() of every object after a program. *)
Definition rc_run {X} (ops : list (op X)) : nat -> Z := fold_left rc_step ops (fun _ => rc_new).
