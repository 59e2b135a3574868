(** The generators of George Marsaglia that include/Lintel/MarsagliaRandom.hpp names. *)
From Coq Require Import List Arith ZArith.
Import ListNotations.
Local Open Scope Z_scope.

(** One xor-shift step (15, 4, 21): [old] is the word that leaves, [last] the newest one. *)
Definition xs_step (old last : Z) : Z :=
  let t := Z.lxor old (old * 2 ^ 15 mod 2 ^ 32) in
  Z.lxor (Z.lxor t (t / 2 ^ 4)) (Z.lxor last (last / 2 ^ 21)).
(** A xor-shift sequence with [k] words of state; Marsaglia's has four. *)
Definition xorshift (k : nat) (u : nat -> Z) : Prop :=
  forall n, u (n + k)%nat = xs_step (u n) (u (n + k - 1)%nat).

(** The multiply-with-carry recurrence of the comment at MarsagliaRandom.hpp:55-58, on the
    words still to be used (oldest first) and the carry. *)
Definition mwc_base : Z := 2 ^ 32 - 1.
Definition mwc_step (A : Z) (s : list Z * Z) : Z * (list Z * Z) :=
  let t := A * hd 0 (fst s) + snd s in
  let v := (mwc_base - 1) - t mod mwc_base in
  (v, (tl (fst s) ++ [v], t / mwc_base)).
Fixpoint mwc_words (A : Z) (n : nat) (s : list Z * Z) : list Z :=
  match n with
  | O => []
  | S n => let '(v, s) := mwc_step A s in v :: mwc_words A n s
  end.
(** The next [n] products are not positive multiples of the base. *)
Fixpoint mwc_no_multiple (A : Z) (n : nat) (s : list Z * Z) : Prop :=
  match n with
  | O => True
  | S n =>
      let t := A * hd 0 (fst s) + snd s in
      (t = 0 \/ t mod mwc_base <> 0) /\ mwc_no_multiple A n (snd (mwc_step A s))
  end.
(** The words of an array in the order in which they are used when the next one is at
    position [p]. *)
Definition from_position (l : list Z) (p : nat) : list Z := skipn p l ++ firstn p l.
