(** Specification for the hash functions. *)
From Coq Require Import List ZArith.
Import ListNotations.
Open Scope Z_scope.

(** A 32-bit word and a byte. *)
Definition word (x : Z) : Prop := 0 <= x < 2 ^ 32.
Definition byte (x : Z) : Prop := 0 <= x < 2 ^ 8.

(** Little-endian number made of some bytes. *)
Fixpoint le (bs : list Z) : Z := match bs with [] => 0 | b :: r => b + 256 * le r end.
(** The three words of a block of at most 12 bytes, missing bytes counted as 0. *)
Definition words (bs : list Z) : Z * Z * Z :=
  (le (firstn 4 bs), le (firstn 4 (skipn 4 bs)), le (firstn 4 (skipn 8 bs))).
(** A map of triples of words that loses nothing and misses nothing. *)
Definition bijective_on_words (f : Z -> Z -> Z -> Z * Z * Z) : Prop :=
  (forall a b c, word a -> word b -> word c -> let '(x, y, z) := f a b c in word x /\ word y /\ word z)
  /\ (forall a b c a' b' c', word a -> word b -> word c -> word a' -> word b' -> word c' ->
        f a b c = f a' b' c' -> a = a' /\ b = b' /\ c = c')
  /\ (forall x y z, word x -> word y -> word z -> exists a b c, word a /\ word b /\ word c /\ f a b c = (x, y, z)).

(** Jenkins' hash, given the mixing step: add the words of each 12-byte block to
    the state and mix; the last, incomplete block has the length added to its
    third word, whose lowest byte holds no data. *)
Definition plus32 (s t : Z * Z * Z) : Z * Z * Z :=
  let '(a, b, c) := s in let '(x, y, z) := t in ((a + x) mod 2 ^ 32, (b + y) mod 2 ^ 32, (c + z) mod 2 ^ 32).
Fixpoint whole_blocks (mix : Z * Z * Z -> Z * Z * Z) (n : nat) (k : list Z) (s : Z * Z * Z) : Z * Z * Z :=
  match n with O => s | S m => whole_blocks mix m (skipn 12 k) (mix (plus32 s (words (firstn 12 k)))) end.
Definition last_block (t : list Z) : Z * Z * Z := words (firstn 8 t ++ 0 :: skipn 8 t).
Definition jenkins (mix : Z * Z * Z -> Z * Z * Z) (initval : Z) (k : list Z) : Z * Z * Z :=
  let n := Nat.div (length k) 12 in
  let s := whole_blocks mix n k (0x9e3779b9, 0x9e3779b9, initval) in
  mix (plus32 (plus32 s (0, 0, Z.of_nat (length k))) (last_block (skipn (12 * n) k))).
