(** Model of include/Lintel/MarsagliaRandom.hpp: the xor-shift generator MicroRandInner and
    the lagged complementary-multiply-with-carry generator MarsagliaInner<SIZE, A>, for any
    SIZE and A. uint32_t arithmetic is written out modulo 2^32. *)
From Coq Require Import List Arith ZArith Bool.
From Verif Require Import Common HashFns_Model Random_Model.
Import ListNotations.
Local Open Scope Z_scope.

(** MarsagliaRandom.hpp:14 *)
Record micro := mk_micro { x_ : Z; y_ : Z; z_ : Z; w_ : Z }.

(** MarsagliaRandom.hpp:19-33 *)
Definition micro_init (seed : Z) : micro :=
  mk_micro (BobJenkinsHashMix3 0x243F6A88 0x85A308D3 seed) (BobJenkinsHashMix3 0x13198A2E 0x03707344 seed)
           (BobJenkinsHashMix3 0xA4093822 0x299F31D0 seed) (BobJenkinsHashMix3 0x082EFA98 0xEC4E6C89 seed).

(** MarsagliaRandom.hpp:35-46: line 43 assigns x twice and never assigns z. *)
Definition micro_randInt (s : micro) : res (Z * micro) :=
  let t := Z.lxor (x_ s) (Z.shiftl (x_ s) 15 mod 2 ^ 32) in
  let x := y_ s in
  let y := z_ s in
  let x := w_ s in
  let w := Z.lxor (Z.lxor t (Z.shiftr t 4)) (Z.lxor (w_ s) (Z.shiftr (w_ s) 21)) in
  Ok (w, mk_micro x y (z_ s) w).

(** MarsagliaRandom.hpp:93-95. [i] is [None] until something is stored in it: reading it
    then is undefined. *)
Record cmwc := mk_cmwc { xs : list Z; c_ : Z; i_ : option Z }.

(** MarsagliaRandom.hpp:103-105: [n] words from the generator. *)
Fixpoint take_words (n : nat) (r : micro) : res (list Z * micro) :=
  match n with
  | O => Ok ([], r)
  | S n => let! (v, r) := micro_randInt r in let! (l, r) := take_words n r in Ok (v :: l, r)
  end.
(** MarsagliaRandom.hpp:98-107: the loop variable hides the member i, which nothing sets.
    [fuel] bounds the rejections of randIntUnbiased. *)
Definition cmwc_init (SIZE : nat) (A : Z) (fuel : nat) (seed : Z) : res cmwc :=
  let! (l, r) := take_words SIZE (micro_init seed) in
  let! (c, _) := randIntUnbiased micro_randInt (2 ^ 32 - 1) (A mod 2 ^ 32) fuel r in
  Ok (mk_cmwc l c None).

(** MarsagliaRandom.hpp:96 *)
Definition B32 : Z := 0xffffffff.
(** MarsagliaRandom.hpp:115-121: the new c and ax_plus_c. *)
Definition divide (A x c : Z) : Z * Z :=
  let temp := (A * x + c) mod 2 ^ 64 in
  let c := Z.shiftr temp 32 mod 2 ^ 32 in
  let ax_plus_c := (temp + c) mod 2 ^ 32 in
  if ax_plus_c <? c then ((c + 1) mod 2 ^ 32, (ax_plus_c + 1) mod 2 ^ 32) else (c, ax_plus_c).
(** MarsagliaRandom.hpp:109-125 *)
Definition cmwc_randInt (SIZE : nat) (A : Z) (s : cmwc) : res (Z * cmwc) :=
  match i_ s with
  | None => UB
  | Some i =>
      let i := (i + 1) mod 2 ^ 32 in
      let i := Z.land i (Z.of_nat SIZE - 1) in
      let! x := get (xs s) (Z.to_nat i) in
      let '(c, ax_plus_c) := divide A x (c_ s) in
      let v := (B32 - 1 - ax_plus_c) mod 2 ^ 32 in
      let! l := put (xs s) (Z.to_nat i) v in
      Ok (v, mk_cmwc l c (Some i))
  end.
