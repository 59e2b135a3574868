(** Model of the Mersenne Twister: include/Lintel/MersenneTwisterRandom.hpp:31-83 and
    src/MersenneTwisterRandom.cpp:105-213. Words are 32-bit numbers. unsigned long is 64
    bits: products wrap at 2^64, which does not reach the low 32 bits that are kept. *)
From Coq Require Import List Arith ZArith Lia Bool.
From Verif Require Import Common.
Import ListNotations.
Local Open Scope Z_scope.

(** MersenneTwisterRandom.hpp:62-73 *)
Definition MT_N : nat := 624.
Definition MT_M : nat := 397.
Definition MATRIX_A : Z := 0x9908b0df.
Definition UPPER_MASK : Z := 0x80000000.
Definition LOWER_MASK : Z := 0x7fffffff.
Definition TEMPERING_MASK_B : Z := 0x9d2c5680.
Definition TEMPERING_MASK_C : Z := 0xefc60000.

(** MersenneTwisterRandom.hpp:75-77 *)
Record mts := mk_mts { mt : list Z; mti : nat; seed_used : Z }.

(** MersenneTwisterRandom.hpp:47-51 *)
Definition temper (y : Z) : Z :=
  let y := Z.lxor y (Z.shiftr y 11) in
  let y := Z.lxor y (Z.land (Z.shiftl y 7 mod 2 ^ 32) TEMPERING_MASK_B) in
  let y := Z.lxor y (Z.land (Z.shiftl y 15 mod 2 ^ 32) TEMPERING_MASK_C) in
  Z.lxor y (Z.shiftr y 18).
(** MersenneTwisterRandom.cpp:202-203, and the same at 206-207 and 209-210: new word from the
    words [a], [b] (next to it) and [c] (M further) *)
Definition twist (a b c : Z) : Z :=
  let y := Z.lor (Z.land a UPPER_MASK) (Z.land b LOWER_MASK) in
  Z.lxor (Z.lxor c (Z.shiftr y 1)) (if Z.land y 1 =? 0 then 0 else MATRIX_A).
Definition twist_at (m : list Z) (k next far : nat) : res (list Z) :=
  let! a := get m k in
  let! b := get m next in
  let! c := get m far in
  put m k (twist a b c).
(** MersenneTwisterRandom.cpp:201-208: [n] turns from [kk] on; the second loop reads
    kk+(M-N) *)
Fixpoint reload_loop1 (n kk : nat) (m : list Z) : res (list Z) :=
  match n with
  | O => Ok m
  | S n => let! m := twist_at m kk (kk + 1) (kk + MT_M) in reload_loop1 n (S kk) m
  end.
Fixpoint reload_loop2 (n kk : nat) (m : list Z) : res (list Z) :=
  match n with
  | O => Ok m
  | S n => let! m := twist_at m kk (kk + 1) (kk + MT_M - MT_N) in reload_loop2 n (S kk) m
  end.
(** MersenneTwisterRandom.cpp:192-213 *)
Definition reloadArray (s : mts) : res mts :=
  let! m := reload_loop1 (MT_N - MT_M) 0 (mt s) in
  let! m := reload_loop2 (MT_N - 1 - (MT_N - MT_M)) (MT_N - MT_M) m in
  let! m := twist_at m (MT_N - 1) 0 (MT_M - 1) in
  Ok (mk_mts m 0 (seed_used s)).
(** MersenneTwisterRandom.hpp:40-53 *)
Definition mt_next (s : mts) : res (Z * mts) :=
  let! s := if Nat.leb MT_N (mti s) then reloadArray s else Ok s in
  let! y := get (mt s) (mti s) in
  Ok (temper y, mk_mts (mt s) (S (mti s)) (seed_used s)).

(** MersenneTwisterRandom.cpp:108-117: the loop over mti *)
Definition scramble (x : Z) : Z := Z.lxor x (Z.shiftr x 30).
Fixpoint init_loop (n i : nat) (m : list Z) : res (list Z) :=
  match n with
  | O => Ok m
  | S n =>
      let! p := get m (i - 1) in
      let! m := put m i ((1812433253 * scramble p + Z.of_nat i) mod 2 ^ 32) in
      init_loop n (S i) m
  end.
(** MersenneTwisterRandom.cpp:105-118. [m] is the array before, with any content. *)
Definition mt_init (m : list Z) (seed : Z) : res mts :=
  let! m := put m 0 (Z.land seed 0xffffffff) in
  let! m := init_loop (MT_N - 1) 1 m in
  Ok (mk_mts m MT_N seed).
(** MersenneTwisterRandom.cpp:148-156 *)
Fixpoint array_loop1 (k i j : nat) (seeds m : list Z) : res (nat * list Z) :=
  match k with
  | O => Ok (i, m)
  | S k =>
      let! x := get m i in
      let! p := get m (i - 1) in
      let! sd := get seeds j in
      let! m := put m i ((Z.lxor x (scramble p * 1664525) + sd + Z.of_nat j) mod 2 ^ 32) in
      let i := S i in let j := S j in
      let! (i, m) :=
        (if Nat.leb MT_N i then let! l := get m (MT_N - 1) in let! m := put m 0 l in Ok (1%nat, m)
         else Ok (i, m)) in
      let j := if Nat.leb (length seeds) j then O else j in
      array_loop1 k i j seeds m
  end.
(** MersenneTwisterRandom.cpp:157-163 *)
Fixpoint array_loop2 (k i : nat) (m : list Z) : res (list Z) :=
  match k with
  | O => Ok m
  | S k =>
      let! x := get m i in
      let! p := get m (i - 1) in
      let! m := put m i ((Z.lxor x (scramble p * 1566083941) - Z.of_nat i) mod 2 ^ 32) in
      let i := S i in
      let! (i, m) :=
        (if Nat.leb MT_N i then let! l := get m (MT_N - 1) in let! m := put m 0 l in Ok (1%nat, m)
         else Ok (i, m)) in
      array_loop2 k i m
  end.
(** MersenneTwisterRandom.cpp:143-167 *)
Definition mt_initArray (m : list Z) (seeds : list Z) : res mts :=
  let! s := mt_init m 19650218 in
  let k := if Nat.ltb (length seeds) MT_N then MT_N else length seeds in
  let! (i, m) := array_loop1 k 1 0 seeds (mt s) in
  let! m := array_loop2 (MT_N - 1) i m in
  let! m := put m 0 0x80000000 in
  Ok (mk_mts m (mti s) (seed_used s)).
