(** Model of include/Lintel/HashFns.hpp and src/HashFns.cpp. uint32_t arithmetic
    is written out modulo 2^32; bytes are numbers 0..255. *)
From Coq Require Import List ZArith.
From Verif Require Import Common.
Import ListNotations.
Open Scope Z_scope.

Definition u32 (x : Z) : Z := x mod 2 ^ 32.
Definition sub (x y : Z) : Z := u32 (x - y).
Definition add (x y : Z) : Z := u32 (x + y).
Definition shr (x n : Z) : Z := Z.shiftr x n.
Definition shl (x n : Z) : Z := u32 (Z.shiftl x n).

(** One line of the mix: x -= y; x -= z; x ^= m. *)
Definition line (x y z m : Z) : Z :=
  let x := sub x y in let x := sub x z in Z.lxor x m.
(** HashFns.hpp:48-58 lintel_BobJenkinsHashMix, the same as HashFns.cpp:44-54 mix. *)
Definition mix (a b c : Z) : Z * Z * Z :=
  let a := line a b c (shr c 13) in
  let b := line b c a (shl a 8) in
  let c := line c a b (shr b 13) in
  let a := line a b c (shr c 12) in
  let b := line b c a (shl a 16) in
  let c := line c a b (shr b 5) in
  let a := line a b c (shr c 3) in
  let b := line b c a (shl a 10) in
  let c := line c a b (shr b 15) in
  (a, b, c).

(** k[i] of HashFns.cpp:87-128, with k the bytes from the current pointer on;
    outside the key: UB. *)
Definition at_ (k : list Z) (i : nat) : res Z := get k i.

(** HashFns.cpp:98-105 *)
Definition word_at (k : list Z) (i : nat) : res Z :=
  let! k0 := at_ k i in let! k1 := at_ k (i + 1) in let! k2 := at_ k (i + 2) in let! k3 := at_ k (i + 3) in
  Ok (add (add (add k0 (shl k1 8)) (shl k2 16)) (shl k3 24)).
Fixpoint main_loop (fuel : nat) (k : list Z) (len a b c : Z) : res (list Z * Z * (Z * Z * Z)) :=
  if 12 <=? len then
    match fuel with
    | O => Fuel
    | S f =>
      let! x := word_at k 0 in let a := add a x in
      let! y := word_at k 4 in let b := add b y in
      let! z := word_at k 8 in let c := add c z in
      let '(a, b, c) := mix a b c in
      main_loop f (skipn 12 k) (len - 12) a b c
    end
  else Ok (k, len, (a, b, c)).
(** One case of the switch, HashFns.cpp:111-122: add k[i] << s when len is at
    least n (the cases fall through). *)
Definition case_ (len n : Z) (k : list Z) (i : nat) (s x : Z) : res Z :=
  if n <=? len then let! ki := at_ k i in Ok (add x (shl ki s)) else Ok x.
(** HashFns.cpp:87-128. [len] is uint32_t, [length] a 64-bit size_t. *)
Definition bobJenkinsHash (initval : Z) (bytes : list Z) : res Z :=
  let length_ := Z.of_nat (length bytes) in
  let len := u32 length_ in
  let! (k, len, (a, b, c)) := main_loop (S (length bytes)) bytes len 0x9e3779b9 0x9e3779b9 initval in
  let c := add c length_ in
  let! c := case_ len 11 k 10 24 c in
  let! c := case_ len 10 k 9 16 c in
  let! c := case_ len 9 k 8 8 c in
  let! b := case_ len 8 k 7 24 b in
  let! b := case_ len 7 k 6 16 b in
  let! b := case_ len 6 k 5 8 b in
  let! b := case_ len 5 k 4 0 b in
  let! a := case_ len 4 k 3 24 a in
  let! a := case_ len 3 k 2 16 a in
  let! a := case_ len 2 k 1 8 a in
  let! a := case_ len 1 k 0 0 a in
  let '(_, _, c) := mix a b c in
  Ok c.
(** HashFns.hpp:74-77 *)
Definition hashBytes (bytes : list Z) (prev_hash : Z) : res Z := bobJenkinsHash prev_hash bytes.
(** HashFns.hpp:84-87 *)
Definition BobJenkinsHashMix3 (a b c : Z) : Z := let '(_, _, c) := mix a b c in c.
(** HashFns.hpp:89-96 *)
Definition BobJenkinsHashMixULL (v partial : Z) : Z :=
  let a := Z.land v 0xFFFFFFFF in
  let b := Z.land (Z.shiftr v 32) 0xFFFFFFFF in
  let '(_, _, c) := mix a b partial in c.
(** HashFns.hpp:105-107 *)
Definition hash_string (s : list Z) : res Z := hashBytes s 1972.
(** The four bytes of a uint32_t in memory, on a little-endian machine. *)
Definition bytes_of (v : Z) : list Z := [v mod 256; v / 256 mod 256; v / 65536 mod 256; v / 16777216 mod 256].
(** HashFns.hpp:98-103, for the hashes of the parts. *)
Definition hash_pair (h1 h2 : Z) : res Z := hashBytes (bytes_of h1) h2.
(** HashFns.hpp:145-174; the argument is converted to an unsigned integer of that size. *)
Definition hash_integral (size : nat) (v : Z) : option Z :=
  match size with
  | 1%nat => Some (v mod 2 ^ 8)
  | 2%nat => Some (v mod 2 ^ 16)
  | 4%nat => Some (v mod 2 ^ 32)
  | 8%nat => Some (BobJenkinsHashMixULL (v mod 2 ^ 64) 1972)
  | _ => None
  end.
