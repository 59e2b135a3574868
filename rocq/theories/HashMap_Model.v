(** Model of include/Lintel/HashMap.hpp on top of HashTable_Model.v.
    Same simplifications as there. *)
From Coq Require Import List Arith NArith Bool.
From Verif Require Import Common HashTable_Model HashTable_Spec HashMap_Spec.
Import ListNotations.

Section HM.
Context {K V : Type}.
Variable khash : K -> N.            (* KHash *)
Variable keq : K -> K -> bool.      (* KEqual *)
Variable kdef : K.                  (* K() *)
Variable vdef : V.                  (* V() *)

(** value_typeHash and value_typeEqual, HashMap.hpp:100-111. *)
Definition vhash (b : K * V) : N := khash (fst b).
Definition vequal (a b : K * V) : bool := keq (fst a) (fst b).
(** "value_type fullval; fullval.first = k;" *)
Definition fullval (k : K) : K * V := (k, vdef).
Definition hm := ht (K * V).

(** HashMap.hpp:236-240 constructors. *)
Definition hm_new (num den : nat) : res hm := ht_new num den.

(** HashMap.hpp:114-120, 286-294 lookup: pointer to the value = slot index. *)
Definition hm_lookup (t : hm) (k : K) : res (option nat) := ht_lookup vhash vequal t (fullval k).

(** HashMap.hpp:124-133 operator[]. *)
Definition hm_index (t : hm) (k : K) : res (hm * nat) :=
  let! o := hm_lookup t k in
  match o with
  | None => ht_add vhash t (fullval k)
  | Some i => Ok (t, i)
  end.

(** Reading and writing through a V& / V* into slot [i]. *)
Definition hm_read (t : hm) (i : nat) : res V := let! b := deref t i in Ok (snd b).
Definition hm_write (t : hm) (i : nat) (v : V) : res hm :=
  let! (b, n) := get (chains t) i in
  let! cs := put (chains t) i ((fst b, v), n) in
  Ok (mk_ht (free_list t) (free_list_size t) cs (entry_points t) (tcl_num t) (tcl_den t)).

(** HashMap.hpp:137-147 addUnlessExist. *)
Definition hm_addUnlessExist (t : hm) (k : K) : res (hm * bool) :=
  let! o := hm_lookup t k in
  match o with
  | None => let! (t', _) := ht_add vhash t (fullval k) in Ok (t', true)
  | Some _ => Ok (t, false)
  end.

(** HashMap.hpp:152-160 cGet. *)
Definition hm_cGet (t : hm) (k : K) : res V :=
  let! o := hm_lookup t k in
  match o with None => Abort | Some i => hm_read t i end.

(** HashMap.hpp:163-172 dGet. *)
Definition hm_dGet (t : hm) (k : K) : res V :=
  let! o := hm_lookup t k in
  match o with None => Ok vdef | Some i => hm_read t i end.

(** HashMap.hpp:176-178 exists. *)
Definition hm_exists (t : hm) (k : K) : res bool :=
  let! o := hm_lookup t k in Ok (match o with None => false | Some _ => true end).

(** HashMap.hpp:181-184 remove. *)
Definition hm_remove (t : hm) (k : K) (must : bool) : res (hm * bool) :=
  ht_remove vhash vequal (kdef, vdef) t (fullval k) must.

(** HashMap.hpp:186-200 *)
Definition hm_clear (t : hm) : hm := ht_clear t.
Definition hm_size (t : hm) : nat := ht_size t.
Definition hm_empty (t : hm) : bool := ht_size t =? 0.

(** HashMap.hpp:206-218 begin/end, and a full iteration. *)
Definition hm_iterate (t : hm) : res (list (K * V)) := ht_iterate t.

(** HashMap.hpp:260-267 keys. *)
Definition hm_keys (t : hm) : res (list K) := let! l := hm_iterate t in Ok (map fst l).

(** HashMap.hpp:252-254 reserve. *)
Definition hm_reserve (t : hm) (n : N) : res hm := ht_reserve t n.

(** HashMap.hpp:220-228 find, 232-234 erase. *)
Definition hm_find (t : hm) (k : K) : res iter := ht_find vhash vequal t (fullval k).
Definition hm_erase (t : hm) (it : iter) : res hm := ht_erase (kdef, vdef) t it.

(** The client loop that removes while iterating, StatsCube.hpp:221-231 and
    HashTupleStats.hpp:231-241:
      for(i = begin(); i != end(); )
        if (p(i->first)) { remove(i->first); i.partialReset(); } else ++i; *)
Fixpoint prune_loop (fuel : nat) (p : K -> bool) (t : hm) (it : iter) : res hm :=
  if it_eqb it (ht_end t) then Ok t
  else match fuel with
       | O => Fuel
       | S f =>
         let! b := it_deref t it in
         if p (fst b) then
           let! (t', _) := hm_remove t (fst b) true in
           let! it' := it_partialReset t' it in
           prune_loop f p t' it'
         else let! it' := it_increment t it in prune_loop f p t it'
       end.
Definition hm_prune (p : K -> bool) (t : hm) : res hm :=
  prune_loop (fuel_of t * fuel_of t) p t (ht_begin t 0).

(** One client operation. *)
Definition hm_step (t : hm) (o : mop K V) : res (hm * mout K V) :=
  match o with
  | MIndex k => let! (t', i) := hm_index t k in let! v := hm_read t' i in Ok (t', RVal v)
  | MAssign k v => let! (t', i) := hm_index t k in let! t'' := hm_write t' i v in Ok (t'', RUnit)
  | MLookup k => let! o := hm_lookup t k in
                 match o with
                 | None => Ok (t, ROpt None)
                 | Some i => let! v := hm_read t i in Ok (t, ROpt (Some v))
                 end
  | MLookupSet k v => let! o := hm_lookup t k in
                      match o with
                      | None => Ok (t, RBool false)
                      | Some i => let! t' := hm_write t i v in Ok (t', RBool true)
                      end
  | MExists k => let! b := hm_exists t k in Ok (t, RBool b)
  | MCGet k => let! v := hm_cGet t k in Ok (t, RVal v)
  | MDGet k => let! v := hm_dGet t k in Ok (t, RVal v)
  | MAddUnless k => let! (t', b) := hm_addUnlessExist t k in Ok (t', RBool b)
  | MRemove k must => let! (t', b) := hm_remove t k must in Ok (t', RBool b)
  | MClear => Ok (hm_clear t, RUnit)
  | MReserve n => let! t' := hm_reserve t n in Ok (t', RUnit)
  | MSize => Ok (t, RNum (hm_size t))
  | MEmpty => Ok (t, RBool (hm_empty t))
  | MKeys => let! l := hm_keys t in Ok (t, RKeys l)
  | MIterate => let! l := hm_iterate t in Ok (t, RPairs l)
  | MFindErase k => let! it := hm_find t k in
                    if it_eqb it (ht_end t) then Ok (t, RBool false)
                    else let! t' := hm_erase t it in Ok (t', RBool true)
  | MEraseIf p => let! (l, t') := ht_erase_if (kdef, vdef) (fun b => p (fst b) (snd b)) t in
                  Ok (t', RPairs l)
  | MPrune p => let! t' := hm_prune p t in Ok (t', RUnit)
  end.

Fixpoint hm_run (t : hm) (ops : list (mop K V)) : list (res (mout K V)) :=
  match ops with
  | [] => []
  | o :: r => match hm_step t o with
              | Ok (t', out) => Ok out :: hm_run t' r
              | Abort => [Abort]
              | UB => [UB]
              | Fuel => [Fuel]
              end
  end.
End HM.
Arguments hm : clear implicits.
