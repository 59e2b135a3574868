(** Model of the incremental scans of a HashTable: the iterator operations
    of include/Lintel/HashTable.hpp:297-335 that HashTable_Model does not have, and the client
    loop their comments describe. *)
From Coq Require Import List Arith NArith Bool.
From Verif Require Import Common HashTable_Spec HashTable_Model.
Import ListNotations.

Section Scan.
Context {D : Type}.
Variable hashfn : D -> N.
Variable equal : D -> D -> bool.
Variable default : D.

(** HashTable.hpp:317-320 atStartOfChain *)
Definition it_atStartOfChain (t : ht D) (it : iter) : res bool :=
  if cur_chain it =? length (entry_points t) then Ok true
  else let! e := get (entry_points t) (cur_chain it) in Ok (opt_nat_eqb e (chain_loc it)).
(** HashTable.hpp:324-327 atEndOfChain *)
Definition it_atEndOfChain (t : ht D) (it : iter) : res bool :=
  if cur_chain it =? length (entry_points t) then Ok true
  else match chain_loc it with
       | None => UB                                         (* chains[-1] *)
       | Some l => let! (_, n) := get (chains t) l in Ok (match n with None => true | Some _ => false end)
       end.
(** HashTable.hpp:329-332 reset *)
Definition it_reset (t : ht D) (it : iter) : iter := findNonemptyChain t (mk_iter 0 (chain_loc it)).

(** One turn of an incremental scan, as the comments at 297-301 and 311-316 say: continue with
    partialReset, then visit elements up to the beginning of a new chain:
      it.partialReset(); while (it != end()) { visit( *it ); ++it; if (it.atStartOfChain()) break; } *)
Fixpoint visit_chain (fuel : nat) (t : ht D) (it : iter) : res (list D * iter) :=
  if it_eqb it (ht_end t) then Ok ([], it)
  else match fuel with
       | O => Fuel
       | S f => let! d := it_deref t it in
                let! it := it_increment t it in
                let! b := it_atStartOfChain t it in
                if b then Ok ([d], it)
                else let! (r, it) := visit_chain f t it in Ok (d :: r, it)
       end.
Definition turn (t : ht D) (it : iter) : res (list D * iter) :=
  let! it := it_partialReset t it in visit_chain (fuel_of t) t it.
(** A scan: before each turn the program makes a batch of changes to the table. Returned are
    the tables at the turns with what was visited, and the iterator. *)
Fixpoint scan (t : ht D) (it : iter) (batches : list (list (top D))) : res (list (ht D * list D) * iter) :=
  match batches with
  | [] => Ok ([], it)
  | ops :: r => let! t := ht_exec hashfn equal default t ops in
                let! (vis, it) := turn t it in
                let! (rest, it) := scan t it r in
                Ok ((t, vis) :: rest, it)
  end.
(** The tables alone: the batches without the scan *)
Fixpoint tables (t : ht D) (batches : list (list (top D))) : res (list (ht D)) :=
  match batches with
  | [] => Ok []
  | ops :: r => let! t := ht_exec hashfn equal default t ops in
                let! rest := tables t r in Ok (t :: rest)
  end.
(** The loop of a client that handles one element per turn *)
Definition single_turn (t : ht D) (it : iter) : res (D * iter) :=
  let! it := it_partialReset t it in
  let! d := it_deref t it in
  let! it := it_increment t it in Ok (d, it).
End Scan.
