(** Model of include/Lintel/HashTupleStats.hpp and include/Lintel/StatsCube.hpp, on
    top of the models of HashMap, HashUnique and Tuples.

    Simplifications: a tuple is the list of its coordinates, all of one type (see
    Tuples_Model.v). A StatsT* is None for NULL or the pointed-to statistics: each
    object is owned by one entry. The OptionalCubeFn and PruneFn look only at the
    coordinates that are not any, and a walk function does not change what it is
    given. StatsT and BaseStatsT are the same type, as getCubeEntry and zeroWalk
    compile only for Stats. *)
From Coq Require Import List Arith NArith ZArith Bool.
From Verif Require Import Common HashTable_Model HashTable_Spec HashMap_Spec HashMap_Model HashFns_Model Unique_Spec Unique_Model Tuples_Spec Tuples_Model Cube_Spec.
Import ListNotations.
Local Open Scope nat_scope.

(** HashMap<K, StatsT *> with entries made on demand. *)
Section entries.
Context {K S : Type}.
Variable khash : K -> N.
Variable keq : K -> K -> bool.
Variable kdef : K.
Variable fresh : S.
Notation map := (hm K (option S)).

(** getHashEntry, HashTupleStats.hpp:206-214, and getCubeEntry, StatsCube.hpp:203-210:
    the slot of the entry *)
Definition getEntry (t : map) (k : K) : res (map * nat) :=
  let! (t, i) := hm_index khash keq None t k in
  let! v := hm_read t i in
  match v with
  | None => let! t := hm_write t i (Some fresh) in Ok (t, i)
  | Some _ => Ok (t, i)
  end.
(** An update of the statistics through the reference *)
Definition modify (t : map) (i : nat) (g : S -> S) : res (map * S) :=
  let! v := hm_read t i in
  match v with
  | None => UB
  | Some s => let! t := hm_write t i (Some (g s)) in Ok (t, g s)
  end.
Definition touch (t : map) (k : K) (g : S -> S) : res (map * S) :=
  let! (t, i) := getEntry t k in modify t i g.
(** *i->second for each pair of a walk *)
Fixpoint derefs (l : list (K * option S)) : res (list (K * S)) :=
  match l with
  | [] => Ok []
  | (k, Some s) :: r => let! r := derefs r in Ok ((k, s) :: r)
  | (_, None) :: _ => UB
  end.
(** walk, HashTupleStats.hpp:131-135 and StatsCube.hpp:177-181: the calls made *)
Definition walk (t : map) : res (list (K * S)) :=
  let! l := hm_iterate t in derefs l.
(** find, then *(i->second) unless it is end(), HashTupleStats.hpp:66-72 *)
Definition findEntry (t : map) (k : K) : res (option S) :=
  let! i := hm_find khash keq None t k in
  if it_eqb i (ht_end t) then Ok None
  else let! b := it_deref t i in
       match snd b with Some s => Ok (Some s) | None => UB end.
End entries.

Section cube.
Context {A S X : Type}.
Variable eqb : A -> A -> bool.
Variable hash : A -> Z.
Variable adef : A.                          (* a default coordinate *)
Variable fresh : S.
Variable add : S -> X -> S.
Variable zero : X.
Variable cube_add : S -> S -> S.
Variable opt : bool -> list (option A) -> bool.
Variable n : nat.                           (* length<Tuple>::value *)

(** operator== of boost tuples, which have equal length by their type *)
Fixpoint tuple_equal (a b : list A) : bool :=
  match a, b with
  | [], [] => true
  | x :: a', y :: b' => eqb x y && tuple_equal a' b'
  | _, _ => false
  end.
(** The hash and equality HashTupleStats uses, HashTupleStats.hpp:103 *)
Definition thash (k : list A) : N := Z.to_N (tuple_hash hash k).
(** and those of the cube, StatsCube.hpp:63, Tuples.hpp:240-245 and 289-292; both
    sides have the same length by their type *)
Definition bhash (k : bitset_any_tuple A) : N := Z.to_N (bat_hash hash k).
Definition bequal (a b : bitset_any_tuple A) : bool := (length (data a) =? length (data b)) && bat_equal eqb a b.
Definition bdef : bitset_any_tuple A := {| data := repeat adef n; any := repeat false n |}.
Definition hts : Type := hm (list A) (option S).
Definition cmap : Type := hm (bitset_any_tuple A) (option S).

(** HashTupleStats::add, HashTupleStats.hpp:125-127 *)
Definition hts_add (t : hts) (k : list A) (x : X) : res hts :=
  let! (t, _) := touch thash tuple_equal fresh t k (fun s => add s x) in Ok t.
(** hashUniqueTupleAdd, HashTupleStats.hpp:42-50 *)
Fixpoint hut_add (huts : list (ht A)) (k : list A) : res (list (ht A)) :=
  match huts, k with
  | h :: hs, x :: xs =>
    let! (h, _) := hu_add (fun a => Z.to_N (hash a)) eqb h x in
    let! hs := hut_add hs xs in
    Ok (h :: hs)
  | _, _ => Ok []
  end.
(** fillHashUniqueTuple, HashTupleStats.hpp:183-187 *)
Fixpoint fill (huts : list (ht A)) (ks : list (list A)) : res (list (ht A)) :=
  match ks with
  | [] => Ok huts
  | k :: r => let! huts := hut_add huts k in fill huts r
  end.
Fixpoint new_huts (m : nat) : res (list (ht A)) :=
  match m with
  | O => Ok []
  | Datatypes.S m => let! h := hu_new in let! r := new_huts m in Ok (h :: r)
  end.
(** zeroWalk, HashTupleStats.hpp:61-91: the calls made. [key] is the part of key_base
    assigned so far; the rest is assigned before it is used. *)
Fixpoint zeroWalk (huts : list (ht A)) (key : list A) (base_data : hts) (null_stat : S) : res (list (list A * S)) :=
  match huts with
  | [] =>
    let! i := findEntry thash tuple_equal base_data key in
    match i with
    | None => Ok [(key, null_stat)]
    | Some s => Ok [(key, s)]
    end
  | h :: hs =>
    let! l := hu_walk h in
    (fix loop (l : list A) : res (list (list A * S)) :=
       match l with
       | [] => Ok []
       | x :: r =>
         let! a := zeroWalk hs (key ++ [x]) base_data null_stat in
         let! b := loop r in
         Ok (a ++ b)
       end) l
  end.
(** walkZeros, HashTupleStats.hpp:172-178 and 194-205 *)
Definition walkZeros (t : hts) (count_zeros : bool) : res (list (list A * S)) :=
  let! l := walk t in
  let! huts := new_huts n in
  let! huts := fill huts (map fst l) in
  let z := if count_zeros then add fresh zero else fresh in
  zeroWalk huts [] t z.

(** key.any[pos] = b *)
Definition set_any (k : bitset_any_tuple A) (pos : nat) (b : bool) : bitset_any_tuple A :=
  {| data := data k; any := upd (any k) pos b |}.
(** cubeAddOne, StatsCube.hpp:259-271; [todo] is key.length - pos. The changed key
    is returned too. *)
Fixpoint cubeAddOne (todo : nat) (c : cmap) (key : bitset_any_tuple A) (pos : nat) (had_any : bool) (value : S)
  : res (cmap * bitset_any_tuple A) :=
  match todo with
  | O =>
    if opt had_any (pattern (data key) (any key)) then
      let! (c, _) := touch bhash bequal fresh c key (fun s => cube_add s value) in
      Ok (c, key)
    else Ok (c, key)
  | Datatypes.S todo =>
    let! (c, key) := cubeAddOne todo c (set_any key pos false) (pos + 1) had_any value in
    cubeAddOne todo c (set_any key pos true) (pos + 1) true value
  end.
(** addToCube, StatsCube.hpp:169-173 *)
Definition addToCube (c : cmap) (k : list A) (value : S) : res cmap :=
  let! (c, _) := cubeAddOne (length k) c {| data := k; any := repeat false (length k) |} 0 false value in
  Ok c.
(** The walk of cube and zeroCube, StatsCube.hpp:122-124 and 154-158 *)
Fixpoint addAllToCube (c : cmap) (l : list (list A * S)) : res cmap :=
  match l with
  | [] => Ok c
  | (k, v) :: r => let! c := addToCube c k v in addAllToCube c r
  end.
(** The tuple for a pattern, as a caller of getCubeEntry makes it *)
Definition key_of (p : list (option A)) : bitset_any_tuple A :=
  {| data := map (fun x => match x with Some a => a | None => adef end) p;
     any := map (fun x => match x with Some _ => false | None => true end) p |}.

(** The constructors: two HashMap() *)
Definition c_new : res (hts * cmap) := let! b := hm_new 2 1 in let! c := hm_new 2 1 in Ok (b, c).
(** The operations, StatsCube.hpp:112-243 *)
Definition c_step (st : hts * cmap) (o : cop A S X) : res ((hts * cmap) * cout A S) :=
  let (b, c) := st in
  match o with
  | CAdd k x => let! b := hts_add b k x in Ok ((b, c), CNone)
  | CAddToCube k s => let! c := addToCube c k s in Ok ((b, c), CNone)
  | CCube => let! l := walk b in let! c := addAllToCube c l in Ok ((b, c), CNone)
  | CZeroCube z => let! l := walkZeros b z in let! c := addAllToCube c l in Ok ((b, c), CNone)
  | CGet p => let! (c, s) := touch bhash bequal fresh c (key_of p) (fun s => s) in Ok ((b, c), CStat s)
  | CWalk => let! l := walk c in Ok ((b, c), CEntries (map (fun e => (pattern (data (fst e)) (any (fst e)), snd e)) l))
  | CSize => Ok ((b, c), CNum (hm_size c))
  | CPrune q => let! c := hm_prune bhash bequal bdef None (fun k => q (pattern (data k) (any k))) c in Ok ((b, c), CNone)
  | CClear t => Ok ((if t then hm_clear b else b, hm_clear c), CNone)
  | CBaseGet k => let! (b, s) := touch thash tuple_equal fresh b k (fun s => s) in Ok ((b, c), CStat s)
  | CBaseWalk => let! l := walk b in Ok ((b, c), CRows l)
  | CWalkZeros z => let! l := walkZeros b z in Ok ((b, c), CRows l)
  | CBaseSize => Ok ((b, c), CNum (hm_size b))
  | CBasePrune q => let! b := hm_prune thash tuple_equal (repeat adef n) None q b in Ok ((b, c), CNone)
  end.
Fixpoint c_run (st : hts * cmap) (l : list (cop A S X)) : res (list (cout A S) * (hts * cmap)) :=
  match l with
  | [] => Ok ([], st)
  | o :: r =>
    let! (st, out) := c_step st o in
    let! (outs, st) := c_run st r in
    Ok (out :: outs, st)
  end.
End cube.
