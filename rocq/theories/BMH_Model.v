(** Model of src/BoyerMooreHorspool.cpp. Bytes are natural numbers below 256;
    memory blocks are lists of bytes; pointer advance is dropping a prefix.
    size_t values are natural numbers (they stay below the block lengths, hence
    below 2^64; the final "--i" past 0 is never executed because i = 0 returns). *)
From Coq Require Import List Arith Bool.
From Verif Require Import Common.
Import ListNotations.

(** Members, BoyerMooreHorspool.hpp:75-78. *)
Record bmh := mk_bmh { bad_char_shift : list nat; needle : list nat; needle_length : nat; last : nat }.

(** BoyerMooreHorspool.cpp:57-59, the [n] iterations from [i] on. *)
Fixpoint fill_shift (n i last : nat) (needle shift : list nat) : res (list nat) :=
  match n with
  | O => Ok shift
  | S n' => let! c := get needle i in
            let! shift' := put shift c (last - i) in
            fill_shift n' (S i) last needle shift'
  end.

(** BoyerMooreHorspool.cpp:31-60: constructor and init. *)
Definition bmh_new (needle_v : list nat) : res bmh :=
  let needle_length := length needle_v in
  let last := needle_length - 1 in
  let! _ := invariant (0 <? needle_length) in
  let! shift := fill_shift last 0 last needle_v (repeat needle_length 256) in
  Ok (mk_bmh shift needle_v needle_length last).

(** The inner loop of find, BoyerMooreHorspool.cpp:66-70: true when it returns
    from the function. *)
Fixpoint match_back (needle haystack : list nat) (i : nat) : res bool :=
  let! h := get haystack i in
  let! n := get needle i in
  if h =? n then match i with O => Ok true | S i' => match_back needle haystack i' end
  else Ok false.

(** The outer loop, BoyerMooreHorspool.cpp:65-76; [off] is haystack - hay_v. *)
Fixpoint find_loop (fuel : nat) (b : bmh) (haystack : list nat) (hay_len off : nat) : res (option nat) :=
  match fuel with
  | O => Fuel
  | S f =>
    if needle_length b <=? hay_len then
      let! m := match_back (needle b) haystack (last b) in
      if m then Ok (Some off)
      else
        let! c := get haystack (last b) in
        let! skip := get (bad_char_shift b) c in
        if hay_len <? skip then Ok None
        else find_loop f b (skipn skip haystack) (hay_len - skip) (off + skip)
    else Ok None
  end.

(** BoyerMooreHorspool.cpp:62-78; [None] is npos. *)
Definition bmh_find (b : bmh) (hay : list nat) : res (option nat) :=
  find_loop (S (length hay)) b hay (length hay) 0.

(** BoyerMooreHorspool.hpp:56-58 *)
Definition bmh_matches (b : bmh) (hay : list nat) : res bool :=
  let! r := bmh_find b hay in Ok (match r with Some _ => true | None => false end).
