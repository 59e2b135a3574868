(** Model of include/Lintel/HashUnique.hpp on top of HashTable_Model.v. Same
    simplifications as there. *)
From Coq Require Import List Arith NArith Bool.
From Verif Require Import Common HashTable_Model HashTable_Spec Unique_Spec.
Import ListNotations.

Section HU.
Context {K : Type}.
Variable khash : K -> N.            (* KHash *)
Variable keq : K -> K -> bool.      (* KEqual *)
Variable kdef : K.                  (* K() *)

(** HashUnique(), HashUnique.hpp:23, with the HashTable() of HashTable.hpp:106-108 *)
Definition hu_new : res (ht K) := ht_new 2 1.
(** exists, HashUnique.hpp:35-38 *)
Definition hu_exists (t : ht K) (k : K) : res bool :=
  let! v := ht_lookup khash keq t k in Ok (match v with Some _ => true | None => false end).
(** add, HashUnique.hpp:43-51 *)
Definition hu_add (t : ht K) (k : K) : res (ht K * bool) :=
  let! v := ht_lookup khash keq t k in
  match v with
  | None => let! (t, _) := ht_add khash t k in Ok (t, true)
  | Some _ => Ok (t, false)
  end.
(** addOrReplace, HashUnique.hpp:55-59 *)
Definition hu_addOrReplace (t : ht K) (k : K) : res (ht K * bool) :=
  let! (t, _, replaced) := ht_addOrReplace khash keq t k in Ok (t, replaced).
(** remove, HashUnique.hpp:61-63 *)
Definition hu_remove (t : ht K) (k : K) (must_exist : bool) : res (ht K) :=
  let! (t, _) := ht_remove khash keq kdef t k must_exist in Ok t.
(** begin and end, HashUnique.hpp:69-85; a full iteration *)
Definition hu_walk (t : ht K) : res (list K) := ht_iterate t.
(** clear, size and reserve, HashUnique.hpp:87-99 *)
Definition hu_clear (t : ht K) : ht K := ht_clear t.
Definition hu_size (t : ht K) : nat := ht_size t.
Definition hu_reserve (t : ht K) (n : N) : res (ht K) := ht_reserve t n.

Definition hu_step (t : ht K) (o : uop K) : res (ht K * uout K) :=
  match o with
  | UExists k => let! b := hu_exists t k in Ok (t, UBool b)
  | UAdd k => let! (t, b) := hu_add t k in Ok (t, UBool b)
  | UAddOrReplace k => let! (t, b) := hu_addOrReplace t k in Ok (t, UBool b)
  | URemove k must => let! t := hu_remove t k must in Ok (t, UUnit)
  | UClear => Ok (hu_clear t, UUnit)
  | UReserve n => let! t := hu_reserve t n in Ok (t, UUnit)
  | USize => Ok (t, UNum (hu_size t))
  | UWalk => let! l := hu_walk t in Ok (t, UKeys l)
  end.
Fixpoint hu_run (t : ht K) (ops : list (uop K)) : list (res (uout K)) :=
  match ops with
  | [] => []
  | o :: r => match hu_step t o with
              | Ok (t', out) => Ok out :: hu_run t' r
              | x => [match x with Abort => Abort | UB => UB | _ => Fuel end]
              end
  end.
End HU.
