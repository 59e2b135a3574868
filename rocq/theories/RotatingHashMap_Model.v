(** Model of include/Lintel/RotatingHashMap.hpp. The callback passed to rotate,
    flushRotate and walk is represented by the list of (key, value) pairs it is
    called on. DEBUG_SINVARIANTs are not executed. *)
From Coq Require Import List Arith NArith Bool.
From Verif Require Import Common HashTable_Model HashMap_Spec HashMap_Model RotatingHashMap_Spec.
Import ListNotations.

Section RHM.
Context {K V : Type}.
Variable khash : K -> N.
Variable keq : K -> K -> bool.
Variable kdef : K.
Variable vdef : V.

(** Members, RotatingHashMap.hpp:190. *)
Record rhm := mk_rhm { table_recent : hm K V; table_old : hm K V }.

Notation lookup := (hm_lookup khash keq vdef).

(** "new HashMapT", default target chain length 2.0 (HashTable.hpp:106-108). *)
Definition new_table : res (hm K V) := hm_new 2 1.

(** RotatingHashMap.hpp:54-57. *)
Definition rhm_new : res rhm :=
  let! a := new_table in let! b := new_table in Ok (mk_rhm a b).

(** RotatingHashMap.hpp:64-77 lookup; the pointer is a slot of table_recent. *)
Definition rhm_lookup (t : rhm) (k : K) : res (rhm * option nat) :=
  let! r := lookup (table_recent t) k in
  match r with
  | Some i => Ok (t, Some i)
  | None =>
    let! o := lookup (table_old t) k in
    match o with
    | None => Ok (t, None)
    | Some j =>
      let! v := hm_read (table_old t) j in
      let! (rec1, i) := hm_index khash keq vdef (table_recent t) k in
      let! rec2 := hm_write rec1 i v in
      let! (old2, _) := hm_remove khash keq kdef vdef (table_old t) k true in
      Ok (mk_rhm rec2 old2, Some i)
    end
  end.

(** RotatingHashMap.hpp:83-90 operator[]. *)
Definition rhm_index (t : rhm) (k : K) : res (rhm * nat) :=
  let! (t1, o) := rhm_lookup t k in
  match o with
  | Some i => Ok (t1, i)
  | None => let! (r, i) := hm_index khash keq vdef (table_recent t1) k in
            Ok (mk_rhm r (table_old t1), i)
  end.

(** RotatingHashMap.hpp:95-97 exists. *)
Definition rhm_exists (t : rhm) (k : K) : res (rhm * bool) :=
  let! (t1, o) := rhm_lookup t k in Ok (t1, match o with Some _ => true | None => false end).

(** RotatingHashMap.hpp:102-106 existsNoPromote. *)
Definition rhm_existsNoPromote (t : rhm) (k : K) : res bool :=
  let! r := lookup (table_recent t) k in
  match r with
  | Some _ => Ok true
  | None => let! o := lookup (table_old t) k in
            Ok (match o with Some _ => true | None => false end)
  end.

(** RotatingHashMap.hpp:109-115 remove. *)
Definition rhm_remove (t : rhm) (k : K) (must : bool) : res (rhm * bool) :=
  let! (r, er) := hm_remove khash keq kdef vdef (table_recent t) k false in
  let! (o, eo) := hm_remove khash keq kdef vdef (table_old t) k false in
  let! _ := invariant (negb must || er || eo) in
  Ok (mk_rhm r o, er || eo).

(** RotatingHashMap.hpp:117-121 rotate(). *)
Definition rhm_rotate (t : rhm) : res rhm :=
  let! n := new_table in Ok (mk_rhm n (table_recent t)).

(** RotatingHashMap.hpp:129-135 rotate(fn). *)
Definition rhm_rotate_fn (t : rhm) : res (rhm * list (K * V)) :=
  let! l := hm_iterate (table_old t) in
  let! t' := rhm_rotate t in Ok (t', l).

(** RotatingHashMap.hpp:138-147 flushRotate. *)
Definition rhm_flush (t : rhm) : res rhm := let! t1 := rhm_rotate t in rhm_rotate t1.
Definition rhm_flush_fn (t : rhm) : res (rhm * list (K * V)) :=
  let! (t1, l1) := rhm_rotate_fn t in
  let! (t2, l2) := rhm_rotate_fn t1 in Ok (t2, l1 ++ l2).

(** RotatingHashMap.hpp:149-156 walk. *)
Definition rhm_walk (t : rhm) : res (list (K * V)) :=
  let! a := hm_iterate (table_recent t) in
  let! b := hm_iterate (table_old t) in Ok (a ++ b).

(** One client operation; sizes and empty are RotatingHashMap.hpp:158-172. *)
Definition rhm_step (t : rhm) (o : rop K V) : res (rhm * mout K V) :=
  match o with
  | RIndex k => let! (t1, i) := rhm_index t k in
                let! v := hm_read (table_recent t1) i in Ok (t1, RVal v)
  | RAssign k v => let! (t1, i) := rhm_index t k in
                   let! r := hm_write (table_recent t1) i v in Ok (mk_rhm r (table_old t1), RUnit)
  | RLookup k => let! (t1, o) := rhm_lookup t k in
                 match o with
                 | None => Ok (t1, ROpt None)
                 | Some i => let! v := hm_read (table_recent t1) i in Ok (t1, ROpt (Some v))
                 end
  | RExists k => let! (t1, b) := rhm_exists t k in Ok (t1, RBool b)
  | RExistsNoPromote k => let! b := rhm_existsNoPromote t k in Ok (t, RBool b)
  | RRemove k must => let! (t1, b) := rhm_remove t k must in Ok (t1, RBool b)
  | RRotate => let! t1 := rhm_rotate t in Ok (t1, RUnit)
  | RRotateFn => let! (t1, l) := rhm_rotate_fn t in Ok (t1, RPairs l)
  | RFlush => let! t1 := rhm_flush t in Ok (t1, RUnit)
  | RFlushFn => let! (t1, l) := rhm_flush_fn t in Ok (t1, RPairs l)
  | RWalk => let! l := rhm_walk t in Ok (t, RPairs l)
  | RSize => Ok (t, RNum (hm_size (table_recent t) + hm_size (table_old t)))
  | RSizeRecent => Ok (t, RNum (hm_size (table_recent t)))
  | RSizeOld => Ok (t, RNum (hm_size (table_old t)))
  | REmpty => Ok (t, RBool (hm_empty (table_recent t) && hm_empty (table_old t)))
  end.

Fixpoint rhm_run (t : rhm) (ops : list (rop K V)) : list (res (mout K V)) :=
  match ops with
  | [] => []
  | o :: r => match rhm_step t o with
              | Ok (t', out) => Ok out :: rhm_run t' r
              | Abort => [Abort]
              | UB => [UB]
              | Fuel => [Fuel]
              end
  end.
End RHM.
Arguments rhm : clear implicits.
