(** Model of src/StringId.cpp and include/Lintel/StringId.hpp, on top of the
    HashTable model. The string a pointer refers to is stored in its place (the
    strings are never changed or freed); ids are uint32_t, written without the
    wrap-around, which the table limit keeps out of reach. The hash function is
    arbitrary: HTEHashStr (StringId.hpp:34-39) calls HashTable_hashbytes, which
    the pinned tree does not define. *)
From Coq Require Import List Arith NArith Bool.
From Verif Require Import Common HashTable_Model StringId_Spec.
Import ListNotations.

Section sid.
Context {A : Type}.
Variable eqb : A -> A -> bool.       (* std::string operator== *)
Variable shash : A -> N.
Variable empty : A.                  (* the string of HTE(id), a wild pointer never followed *)

(** StringId.hpp:28-33 HTE *)
Notation hte := (A * N)%type.
(** StringId.hpp:34-57 *)
Definition hash_str (k : hte) : N := shash (fst k).
Definition equal_str (a b : hte) : bool := eqb (fst a) (fst b).
Definition hash_id (k : hte) : N := snd k.
Definition equal_id (a b : hte) : bool := N.eqb (snd a) (snd b).

Record sid : Type := { idmap : ht hte; revmap : ht hte; nextid : N }.

(** StringId.cpp:15-19; the default target chain length is 2 (HashTable.hpp:106-108). *)
Definition sid_new : res sid :=
  let! m := ht_new 2 1 in
  let! r := ht_new 4 1 in
  Ok {| idmap := m; revmap := r; nextid := 1 |}.
(** StringId.cpp:21-48 *)
Definition getId (t : sid) (s : A) : res (sid * N) :=
  let! d := ht_lookup hash_str equal_str (idmap t) (s, 0%N) in
  match d with
  | None =>
    let ent := (s, nextid t) in
    let! (m, _) := ht_add hash_str (idmap t) ent in
    let! (r, _) := ht_add hash_id (revmap t) ent in
    Ok ({| idmap := m; revmap := r; nextid := nextid t + 1 |}, nextid t)
  | Some i => let! e := deref (idmap t) i in Ok (t, snd e)
  end.
(** StringId.cpp:50-65 *)
Definition getString (t : sid) (id : N) : res A :=
  let! d := ht_lookup hash_id equal_id (revmap t) (empty, id) in
  match d with
  | None => Abort
  | Some i => let! e := deref (revmap t) i in Ok (fst e)
  end.
(** StringId.hpp:25 *)
Definition maxId (t : sid) : N := nextid t.

Definition sid_step (t : sid) (o : sop A) : res (sid * sout A) :=
  match o with
  | GetId s => let! (t', id) := getId t s in Ok (t', Id id)
  | GetString id => let! s := getString t id in Ok (t, Str s)
  | MaxId => Ok (t, Id (maxId t))
  end.
End sid.
Arguments sid A : clear implicits.
