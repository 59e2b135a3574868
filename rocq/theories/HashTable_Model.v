(** Model of include/Lintel/HashTable.hpp and src/HashTable.cpp.

    Simplifications: slot indices are unbounded naturals (the code uses int32_t)
    with [None] for the sentinel -1; [target_chain_length] is the exact positive
    rational [tcl_num / tcl_den] (a double in the code); allocation succeeds;
    the debug-only checks (DEBUG_SINVARIANT) are not executed. A pointer to an
    element is the index of its slot in [chains]. *)
From Coq Require Import List Arith NArith Lia Bool.
From Verif Require Import Common.
Import ListNotations.

(** src/HashTable.cpp:15-19 *)
Definition HashTable_prime_list : list N :=
  [5; 23; 107; 433; 1543; 6091; 24281; 100169; 487651; 1179589; 2471093;
   7368787; 32452843; 141650939; 0]%N.

(** The prime-scan loops of HashTable.hpp:504-507 ([cont p := p < wanted]) and
    652-655 ([cont p := p <= old_size]):
      for(i=0; cont(prime[i]); ++i) SINVARIANT(prime[i] != 0); new_size = prime[i] *)
Fixpoint scan_primes (cont : N -> bool) (l : list N) : res N :=
  match l with
  | [] => UB
  | p :: r => if cont p
              then (if N.eqb p 0 then Abort else scan_primes cont r)
              else Ok p
  end.

Section HT.
Context {D : Type}.
Variable hashfn : D -> N.            (* HashFn, HashTable.hpp:98; uint32_t result *)
Variable equal : D -> D -> bool.     (* Equal, HashTable.hpp:98 *)
Variable default : D.                (* D() *)

(** Members, HashTable.hpp:674-680; hte is HashTable.hpp:36-43 (data, next). *)
Record ht := mk_ht {
  free_list : option nat;
  free_list_size : nat;
  chains : list (D * option nat);
  entry_points : list (option nat);
  tcl_num : nat;                     (* target_chain_length = tcl_num / tcl_den *)
  tcl_den : nat
}.

(** HashTable.hpp:103-108 (constructors) and 615-628 (init).
    INVARIANT(_tcl > 0). *)
Definition ht_new (num den : nat) : res ht :=
  if (0 <? num) && (0 <? den) then Ok (mk_ht None 0 [] [] num den) else Abort.

(** HashTable.hpp:559-561 followed by "% entry_points.size()". *)
Definition bucket_of (size : nat) (d : D) : nat := N.to_nat (N.modulo (hashfn d) (N.of_nat size)).

(** The chain walking loops "for(i = start; i != -1; i = chains[i].next)",
    stopping at the first slot whose data satisfies [p]. *)
Fixpoint chain_find (fuel : nat) (cs : list (D * option nat)) (p : D -> bool)
         (i : option nat) : res (option nat) :=
  match i with
  | None => Ok None
  | Some j =>
    match fuel with
    | O => Fuel
    | S f => let! (d, n) := get cs j in
             if p d then Ok (Some j) else chain_find f cs p n
    end
  end.

(** Slots of a chain, in order (same loop without early exit). *)
Fixpoint chain_walk (fuel : nat) (cs : list (D * option nat)) (i : option nat)
  : res (list nat) :=
  match i with
  | None => Ok []
  | Some j =>
    match fuel with
    | O => Fuel
    | S f => let! (_, n) := get cs j in
             let! r := chain_walk f cs n in Ok (j :: r)
    end
  end.

Definition fuel_of (t : ht) : nat := S (length (chains t)).

(** HashTable.hpp:592-605 staticInternalLookup, 137-156 lookup. *)
Definition ht_lookup (t : ht) (k : D) : res (option nat) :=
  if length (entry_points t) =? 0 then Ok None
  else
    let h := bucket_of (length (entry_points t)) k in
    let! e := get (entry_points t) h in
    chain_find (fuel_of t) (chains t) (equal k) e.

(** HashTable.hpp:667-671: relink slot [i], which holds [d]. *)
Definition relink (cs : list (D * option nat)) (ep : list (option nat)) (new_size i : nat)
  : res (list (D * option nat) * list (option nat)) :=
  let! (d, _) := get cs i in
  let h := bucket_of new_size d in
  let! e := get ep h in
  let! cs' := put cs i (d, e) in
  let! ep' := put ep h (Some i) in
  Ok (cs', ep').

Fixpoint relink_all (todo : list nat) (cs : list (D * option nat)) (ep : list (option nat))
         (new_size : nat) : res (list (D * option nat) * list (option nat)) :=
  match todo with
  | [] => Ok (cs, ep)
  | i :: r => let! (cs', ep') := relink cs ep new_size i in relink_all r cs' ep' new_size
  end.

(** HashTable.hpp:647-672 resizeHashTable. Lines 656-665 (resize, reset all
    entry points and all links to -1) are one step here. *)
Definition resizeHashTable (t : ht) : res ht :=
  let! _ := invariant (match free_list t with None => true | _ => false end
                       && (free_list_size t =? 0)) in
  let old_size := length (entry_points t) in
  let! p := scan_primes (fun p => N.leb p (N.of_nat old_size)) HashTable_prime_list in
  let new_size := N.to_nat p in
  let ep0 := repeat None new_size in
  let cs0 := map (fun dn => (fst dn, None)) (chains t) in
  let! (cs, ep) := relink_all (seq 0 (length (chains t))) cs0 ep0 new_size in
  Ok (mk_ht (free_list t) (free_list_size t) cs ep (tcl_num t) (tcl_den t)).

(** "chains.size() >= target_chain_length * entry_points.size()", HashTable.hpp:565. *)
Definition overfull (t : ht) : bool :=
  N.leb (N.of_nat (tcl_num t) * N.of_nat (length (entry_points t)))
        (N.of_nat (length (chains t)) * N.of_nat (tcl_den t)).

(** HashTable.hpp:563-590 internalAdd; returns the slot of the new element. *)
Definition internalAdd (t0 : ht) (d : D) : res (ht * nat) :=
  let! t := (match free_list t0 with
             | None => if overfull t0 then resizeHashTable t0 else Ok t0
             | Some _ => Ok t0
             end) in
  let! _ := invariant (0 <? length (entry_points t)) in
  let h := bucket_of (length (entry_points t)) d in
  let! e := get (entry_points t) h in
  match free_list t with
  | None =>
    let loc := length (chains t) in
    let! ep := put (entry_points t) h (Some loc) in
    Ok (mk_ht None (free_list_size t) (chains t ++ [(d, e)]) ep (tcl_num t) (tcl_den t), loc)
  | Some loc =>
    let! (_, n) := get (chains t) loc in
    let! cs := put (chains t) loc (d, e) in
    let! ep := put (entry_points t) h (Some loc) in
    Ok (mk_ht n (free_list_size t - 1) cs ep (tcl_num t) (tcl_den t), loc)
  end.

(** HashTable.hpp:116-119 add. *)
Definition ht_add (t : ht) (d : D) : res (ht * nat) := internalAdd t d.

(** HashTable.hpp:123-133 addOrReplace; returns (table, slot, replaced). *)
Definition ht_addOrReplace (t : ht) (d : D) : res (ht * nat * bool) :=
  let! r := ht_lookup t d in
  match r with
  | Some i => Ok (t, i, true)
  | None => let! (t', i) := internalAdd t d in Ok (t', i, false)
  end.

(** Lines 233-237 (and 216-220 with prev = none): slot [loc] is unlinked and
    pushed on the free list. [ep]/[cs] already bypass [loc]. *)
Definition to_free_list (t : ht) (cs : list (D * option nat)) (ep : list (option nat))
           (loc : nat) : res ht :=
  let! cs' := put cs loc (default, free_list t) in
  Ok (mk_ht (Some loc) (S (free_list_size t)) cs' ep (tcl_num t) (tcl_den t)).

(** The while(true) loop of HashTable.hpp:223-240. *)
Fixpoint remove_loop (fuel : nat) (t : ht) (k : D) (must_exist : bool) (prev : nat)
  : res (ht * bool) :=
  match fuel with
  | O => Fuel
  | S f =>
    let! (pd, loc) := get (chains t) prev in
    match loc with
    | None => if must_exist then Abort else Ok (t, false)
    | Some l =>
      let! (d, n) := get (chains t) l in
      if equal k d then
        let! cs := put (chains t) prev (pd, n) in
        let! t' := to_free_list t cs (entry_points t) l in
        Ok (t', true)
      else remove_loop f t k must_exist l
    end
  end.

(** HashTable.hpp:200-243 remove. *)
Definition ht_remove (t : ht) (k : D) (must_exist : bool) : res (ht * bool) :=
  if length (entry_points t) =? 0 then (if must_exist then Abort else Ok (t, false))
  else
    let h := bucket_of (length (entry_points t)) k in
    let! e := get (entry_points t) h in
    match e with
    | None => if must_exist then Abort else Ok (t, false)
    | Some loc =>
      let! (d, n) := get (chains t) loc in
      if equal k d then
        let! ep := put (entry_points t) h n in
        let! t' := to_free_list t (chains t) ep loc in
        Ok (t', true)
      else remove_loop (fuel_of t) t k must_exist loc
    end.

(** HashTable.hpp:245-252 clear. *)
Definition ht_clear (t : ht) : ht :=
  mk_ht None 0 [] (map (fun _ => None) (entry_points t)) (tcl_num t) (tcl_den t).

(** HashTable.hpp:477-481 size (uint32_t subtraction; never negative, see C02). *)
Definition ht_size (t : ht) : nat := length (chains t) - free_list_size t.

(** std::vector<int>::resize(n, -1). *)
Definition vec_resize (l : list (option nat)) (n : nat) : list (option nat) :=
  firstn n l ++ repeat None (n - length l).

(** HashTable.hpp:496-510 reserve. *)
Definition ht_reserve (t : ht) (expected : N) : res ht :=
  let! _ := invariant (length (chains t) =? 0) in
  let want := N.div (expected * N.of_nat (tcl_den t)) (N.of_nat (tcl_num t)) in
  let! p := scan_primes (fun p => N.ltb p want) HashTable_prime_list in
  Ok (mk_ht (free_list t) (free_list_size t) (chains t)
            (vec_resize (entry_points t) (N.to_nat p)) (tcl_num t) (tcl_den t)).

(** HashTable.hpp:547-556 verifyFreeListSize. *)
Definition ht_verifyFreeListSize (t : ht) : res bool :=
  let! l := chain_walk (fuel_of t) (chains t) (free_list t) in
  let! _ := invariant (length l =? free_list_size t) in
  Ok true.

(** ** Iterators: HashTable.hpp:267-368. [chain_loc = None] is -1. *)
Record iter := mk_iter { cur_chain : nat; chain_loc : option nat }.

(** HashTable.hpp:347-350: advance over empty chains; [n] bounds the loop. *)
Fixpoint skip_empty (n : nat) (ep : list (option nat)) (c : nat) : nat :=
  match n with
  | O => c
  | S n' => match nth_error ep c with
            | Some None => skip_empty n' ep (S c)
            | _ => c
            end
  end.

(** HashTable.hpp:346-354 findNonemptyChain. *)
Definition findNonemptyChain (t : ht) (it : iter) : iter :=
  let c := skip_empty (length (entry_points t)) (entry_points t) (cur_chain it) in
  match nth_error (entry_points t) c with
  | Some e => mk_iter c e
  | None => mk_iter c (chain_loc it)
  end.

(** HashTable.hpp:394-396 begin, via the constructor at 338-345. *)
Definition ht_begin (t : ht) (start_chain : nat) : iter :=
  findNonemptyChain t (mk_iter start_chain None).

(** HashTable.hpp:398-400 end. *)
Definition ht_end (t : ht) : iter :=
  findNonemptyChain t (mk_iter (length (entry_points t)) None).

(** HashTable.hpp:355-364 increment. *)
Definition it_increment (t : ht) (it : iter) : res iter :=
  match chain_loc it with
  | None => Abort
  | Some l =>
    if l <? length (chains t) then
      let! (_, n) := get (chains t) l in
      match n with
      | None => Ok (findNonemptyChain t (mk_iter (S (cur_chain it)) None))
      | Some _ => Ok (mk_iter (cur_chain it) n)
      end
    else Abort
  end.

(** HashTable.hpp:287-292 operator* *)
Definition it_deref (t : ht) (it : iter) : res D :=
  match chain_loc it with
  | None => Abort
  | Some l => if l <? length (chains t) then let! (d, _) := get (chains t) l in Ok d else Abort
  end.

(** HashTable.hpp:277-281 operator== (same table). *)
Definition opt_nat_eqb (a b : option nat) : bool :=
  match a, b with Some x, Some y => x =? y | None, None => true | _, _ => false end.
Definition it_eqb (a b : iter) : bool :=
  (cur_chain a =? cur_chain b) && opt_nat_eqb (chain_loc a) (chain_loc b).

(** HashTable.hpp:303-310 partialReset. *)
Definition it_partialReset (t : ht) (it : iter) : res iter :=
  match nth_error (entry_points t) (cur_chain it) with
  | Some e => Ok (findNonemptyChain t (mk_iter (cur_chain it) e))
  | None => let! _ := invariant (cur_chain it =? length (entry_points t)) in Ok it
  end.

(** The canonical client loop
      for(iterator i = begin(); i != end(); ++i) collect( *i );   *)
Fixpoint iter_loop (fuel : nat) (t : ht) (it : iter) : res (list D) :=
  if it_eqb it (ht_end t) then Ok []
  else match fuel with
       | O => Fuel
       | S f => let! d := it_deref t it in
                let! it' := it_increment t it in
                let! r := iter_loop f t it' in
                Ok (d :: r)
       end.
Definition ht_iterate (t : ht) : res (list D) := iter_loop (fuel_of t) t (ht_begin t 0).

(** HashTable.hpp:402-413 find. *)
Definition ht_find (t : ht) (k : D) : res iter :=
  if length (entry_points t) =? 0 then Ok (ht_end t)
  else
    let h := bucket_of (length (entry_points t)) k in
    let! e := get (entry_points t) h in
    let! r := chain_find (fuel_of t) (chains t) (equal k) e in
    match r with
    | Some i => Ok (mk_iter h (Some i))
    | None => Ok (ht_end t)
    end.

(** The while loop of HashTable.hpp:423-428: predecessor of [target]. *)
Fixpoint find_prev (fuel : nat) (cs : list (D * option nat)) (target : nat)
         (prev cur : option nat) : res (option nat) :=
  match fuel with
  | O => Fuel
  | S f =>
    match cur with
    | None => UB                     (* chains[-1].next *)
    | Some c => if c =? target then Ok prev
                else let! (_, n) := get cs c in find_prev f cs target (Some c) n
    end
  end.

(** HashTable.hpp:419-437 erase. Line 421 clears the data first; the loop does
    not read data, so clearing it together with the relinking is the same. *)
Definition ht_erase (t : ht) (it : iter) : res ht :=
  match chain_loc it with
  | None => UB                       (* chains[-1].data = D() *)
  | Some loc =>
    let! (_, n) := get (chains t) loc in
    let! e := get (entry_points t) (cur_chain it) in
    let! prev := find_prev (fuel_of t) (chains t) loc None e in
    match prev with
    | None => let! ep := put (entry_points t) (cur_chain it) n in
              to_free_list t (chains t) ep loc
    | Some p => let! (pd, _) := get (chains t) p in
                let! cs := put (chains t) p (pd, n) in
                to_free_list t cs (entry_points t) loc
    end
  end.

(** The client loop erasing while iterating, with the iterator advanced before
    the erase:  for(i = begin(); i != end();) { tmp = i; ++i; if (p( *tmp)) erase(tmp); }
    Returns the visited elements and the final table. *)
Fixpoint erase_if_loop (fuel : nat) (p : D -> bool) (t : ht) (it : iter) : res (list D * ht) :=
  if it_eqb it (ht_end t) then Ok ([], t)
  else match fuel with
       | O => Fuel
       | S f => let! d := it_deref t it in
                let! it' := it_increment t it in
                let! t' := (if p d then ht_erase t it else Ok t) in
                let! (r, t'') := erase_if_loop f p t' it' in
                Ok (d :: r, t'')
       end.
Definition ht_erase_if (p : D -> bool) (t : ht) : res (list D * ht) :=
  erase_if_loop (fuel_of t) p t (ht_begin t 0).

(** HashTable.hpp:168-197 randomlookup. The first loop (174-178) tries the
    chains start, start+1, ... modulo size and aborts when it is back at the
    start; [n] counts the remaining chains. *)
Fixpoint random_chain (n : nat) (ep : list (option nat)) (start chain : nat)
  : res (nat * nat) :=
  let! e := get ep chain in
  match e with
  | Some j => Ok (chain, j)
  | None =>
    match n with
    | O => Fuel
    | S n' =>
      let c' := (chain + 1) mod length ep in
      if c' =? start then Abort else random_chain n' ep start c'
    end
  end.

Definition ht_randomlookup (t : ht) (randa randb : N) : res (option nat) :=
  if ht_size t =? 0 then Ok None
  else
    let sz := length (entry_points t) in
    if sz =? 0 then UB               (* randa % 0 *)
    else
    let start := N.to_nat (N.modulo randa (N.of_nat sz)) in
    let! (_, j) := random_chain sz (entry_points t) start start in
    let! l := chain_walk (fuel_of t) (chains t) (Some j) in
    let! _ := invariant (0 <? length l) in
    let b := N.to_nat (N.modulo randb (N.of_nat (length l))) in
    match nth_error l b with
    | Some i => Ok (Some i)
    | None => Abort                  (* FATAL_ERROR at 195 *)
    end.

End HT.
Arguments ht : clear implicits.
Arguments iter : clear implicits.

(** ** Client programs *)
From Verif Require Import HashTable_Spec.
Section Run.
Context {D : Type}.
Variable hashfn : D -> N.
Variable equal : D -> D -> bool.
Variable default : D.

Definition deref (t : ht D) (i : nat) : res D := let! (d, _) := get (chains t) i in Ok d.
Definition deref_opt (t : ht D) (o : option nat) : res (option D) :=
  match o with None => Ok None | Some i => let! d := deref t i in Ok (Some d) end.

(** One client operation on the modelled table (each case calls the model of
    the corresponding method and reads through the returned pointer). *)
Definition ht_step (t : ht D) (o : top D) : res (ht D * tout D) :=
  match o with
  | TAdd d => let! (t', i) := ht_add hashfn t d in
              let! r := deref t' i in Ok (t', TElem (Some r))
  | TAddOrReplace d => let! (t', i, b) := ht_addOrReplace hashfn equal t d in
                       let! r := deref t' i in Ok (t', TElemB (Some r) b)
  | TLookup k => let! o := ht_lookup hashfn equal t k in
                 let! r := deref_opt t o in Ok (t, TElem r)
  | TRemove k must => let! (t', b) := ht_remove hashfn equal default t k must in Ok (t', TBool b)
  | TFindErase k => let! it := ht_find hashfn equal t k in
                    if it_eqb it (ht_end t) then Ok (t, TElem None)
                    else let! d := it_deref t it in
                         let! t' := ht_erase default t it in Ok (t', TElem (Some d))
  | TEraseIf p => let! (l, t') := ht_erase_if default p t in Ok (t', TElems l)
  | TClear => Ok (ht_clear t, TUnit)
  | TReserve n => let! t' := ht_reserve t n in Ok (t', TUnit)
  | TSize => Ok (t, TNum (ht_size t))
  | TVerify => let! b := ht_verifyFreeListSize t in Ok (t, TBool b)
  | TIterate => let! l := ht_iterate t in Ok (t, TElems l)
  | TRandom a b => let! o := ht_randomlookup t a b in
                   let! r := deref_opt t o in Ok (t, TElem r)
  end.

(** Outcomes of a client program, cut at the first non-[Ok] outcome. *)
Fixpoint ht_run (t : ht D) (ops : list (top D)) : list (res (tout D)) :=
  match ops with
  | [] => []
  | o :: r => match ht_step t o with
              | Ok (t', out) => Ok out :: ht_run t' r
              | Abort => [Abort]
              | UB => [UB]
              | Fuel => [Fuel]
              end
  end.

(** The table after a program that runs to completion. *)
Fixpoint ht_exec (t : ht D) (ops : list (top D)) : res (ht D) :=
  match ops with
  | [] => Ok t
  | o :: r => let! (t', _) := ht_step t o in ht_exec t' r
  end.
End Run.
