(** The MT19937 generator as published: a linear recurrence on 32-bit words x0, x1, ...
    whose terms from x624 on are tempered and handed out. *)
From Coq Require Import List Arith ZArith.
Import ListNotations.
Local Open Scope Z_scope.

(** The top bit of [a] and the other bits of [b], times the twist matrix, added to [c]. *)
Definition mt_step (a b c : Z) : Z :=
  let y := a / 2 ^ 31 * 2 ^ 31 + b mod 2 ^ 31 in
  Z.lxor c (Z.lxor (y / 2) (if Z.odd y then 0x9908b0df else 0)).
Definition mt_sequence (x : nat -> Z) : Prop :=
  (forall k, 0 <= x k < 2 ^ 32) /\ forall k, x (k + 624)%nat = mt_step (x k) (x (k + 1)%nat) (x (k + 397)%nat).
Definition mt_temper (y : Z) : Z :=
  let y := Z.lxor y (y / 2 ^ 11) in
  let y := Z.lxor y (Z.land (y * 2 ^ 7) 0x9d2c5680) in
  let y := Z.lxor y (Z.land (y * 2 ^ 15) 0xefc60000) in
  Z.lxor y (y / 2 ^ 18).
(** The first words for a seed. *)
Definition mt_seeded (seed : Z) (x : nat -> Z) : Prop :=
  x 0%nat = seed /\
  forall i, (0 < i < 624)%nat -> x i = (1812433253 * Z.lxor (x (i - 1)%nat) (x (i - 1)%nat / 2 ^ 30) + Z.of_nat i) mod 2 ^ 32.
(** The words handed out. *)
Definition mt_outputs (x : nat -> Z) (n : nat) : list Z := map (fun i => mt_temper (x (624 + i)%nat)) (seq 0 n).

(** Seeding with an array, as published: word [n] of [y] is written over word [n-623], and
    depends on it and the word written before. The first 624 words are those for the seed
    19650218. Then one round per element of the array (at least 624 of them), the elements
    being used in turn, and another 623 rounds. *)
Definition mt_mix (old prev factor : Z) : Z := Z.lxor old (Z.lxor prev (prev / 2 ^ 30) * factor).
Definition mt_rounds (seeds : list Z) : nat := Nat.max 624 (length seeds).
Definition mt_array_seeded (seeds : list Z) (y : nat -> Z) : Prop :=
  mt_seeded 19650218 y /\
  (forall t, (t < mt_rounds seeds)%nat ->
     y (624 + t)%nat = (mt_mix (y (1 + t)%nat) (if (t =? 0)%nat then y 0%nat else y (623 + t)%nat) 1664525 +
                        nth (t mod length seeds) seeds 0 + Z.of_nat (t mod length seeds)) mod 2 ^ 32) /\
  (forall t, (mt_rounds seeds <= t < mt_rounds seeds + 623)%nat ->
     y (624 + t)%nat = (mt_mix (y (1 + t)%nat) (y (623 + t)%nat) 1566083941 - Z.of_nat (1 + t mod 623)) mod 2 ^ 32).
(** The words the generator starts from: the last 623 written, each at its place, after a
    first word that has just its top bit set. *)
Definition mt_array_start (seeds : list Z) (y x : nat -> Z) : Prop :=
  x 0%nat = 2 ^ 31 /\
  forall t, (mt_rounds seeds <= t < mt_rounds seeds + 623)%nat -> x (1 + t mod 623)%nat = y (624 + t)%nat.
