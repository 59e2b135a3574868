(** Model of HashTable::dense, unsafeGetRawDataVector and chainLengthStats,
    include/Lintel/HashTable.hpp:254-264, 537-544. *)
From Coq Require Import List Arith NArith Bool.
From Verif Require Import Common HashTable_Model.
Import ListNotations.

Section M.
Context {D : Type}.
(** dense, HashTable.hpp:537-539 *)
Definition ht_dense (t : ht D) : bool := match free_list t with None => true | Some _ => false end.
(** unsafeGetRawDataVector, HashTable.hpp:541-544; the data of the entries of the vector *)
Definition ht_raw (t : ht D) : res (list D) :=
  let! _ := invariant (ht_dense t) in
  Ok (map fst (chains t)).
(** The inner loop of chainLengthStats, HashTable.hpp:258-261 *)
Fixpoint chain_length (fuel : nat) (cs : list (D * option nat)) (j : option nat) (len : nat) : res nat :=
  match j with
  | None => Ok len
  | Some j => match fuel with
              | O => Fuel
              | S f => let! (_, n) := get cs j in chain_length f cs n (S len)
              end
  end.
(** The outer loop, lines 257-263: what is passed to stats.add, in order *)
Fixpoint chain_lengths (fuel : nat) (cs : list (D * option nat)) (ep : list (option nat)) : res (list nat) :=
  match ep with
  | [] => Ok []
  | e :: ep => let! n := chain_length fuel cs e 0 in let! r := chain_lengths fuel cs ep in Ok (n :: r)
  end.
Definition ht_chainLengthStats (t : ht D) : res (list nat) := chain_lengths (fuel_of t) (chains t) (entry_points t).
End M.
