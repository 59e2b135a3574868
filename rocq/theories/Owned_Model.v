(** Model of HashTupleStats (include/Lintel/HashTupleStats.hpp) and of the cube_data of
    StatsCube (include/Lintel/StatsCube.hpp) with the statistics objects on an explicit
    heap: what is allocated, deleted and reached through a pointer. On top of
    HashMap_Model.v; the same simplifications as there. The two classes have the same
    code on their HashMap<Key, StatsT *>, apart from the check of the factory's result.

    Simplifications: an address is not used again after delete; the keys of a zero walk
    are an argument (Cube_Model.v computes them); callbacks do not use the object they
    are called from. *)
From Coq Require Import List Arith NArith Bool.
From Verif Require Import Common HashTable_Model HashTable_Spec HashMap_Spec HashMap_Model Owned_Spec.
Import ListNotations.

(** The heap of statistics: None after delete. *)
Section heap.
Context {S : Type}.
Definition heap : Type := list (option S).
(** new T(), HashTupleStats.hpp:91-93 *)
Definition halloc (h : heap) (s : S) : heap * nat := (h ++ [Some s], length h).
(** *p *)
Definition hget (h : heap) (a : nat) : res S :=
  match nth_error h a with Some (Some s) => Ok s | _ => UB end.
(** a change of *p *)
Definition hset (h : heap) (a : nat) (s : S) : res heap :=
  match nth_error h a with Some (Some _) => Ok (upd h a (Some s)) | _ => UB end.
(** delete p; deleting NULL does nothing *)
Definition hdelete (h : heap) (p : option nat) : res heap :=
  match p with
  | None => Ok h
  | Some a => match nth_error h a with Some (Some _) => Ok (upd h a None) | _ => UB end
  end.
(** The number of objects that exist, as an instance counter in StatsT shows it *)
Definition hlive (h : heap) : nat := length (filter (fun c => match c with Some _ => true | None => false end) h).
End heap.
Arguments heap : clear implicits.

Section owned.
Context {K S : Type}.
Variable khash : K -> N.
Variable keq : K -> K -> bool.
Variable kdef : K.
Variable klt : K -> K -> bool.              (* operator< of keys *)
Variable fresh : S.                         (* what the factory makes *)
(** true: HashTupleStats, false: StatsCube *)
Variable checked : bool.

Notation map_t := (hm K (option nat)).
Record ostate := mk_os { data : map_t; mem : heap S }.

(** getHashEntry, HashTupleStats.hpp:206-214, with the SINVARIANT of line 211, and
    getCubeEntry, StatsCube.hpp:203-210, without. None: the factory threw; the entry
    that operator[] made stays. *)
Definition getEntry (st : ostate) (k : K) (m : made) : res (ostate * option nat) :=
  let! (t, i) := hm_index khash keq None (data st) k in
  let! v := hm_read t i in
  match v with
  | Some a => Ok (mk_os t (mem st), Some a)
  | None =>
    match m with
    | Threw => Ok (mk_os t (mem st), None)
    | Null => let! _ := invariant (negb checked) in UB
    | Made =>
      let (h, a) := halloc (mem st) fresh in
      let! t := hm_write t i (Some a) in
      Ok (mk_os t h, Some a)
    end
  end.

(** The body of a walk, HashTupleStats.hpp:132-134 and 150-152, StatsCube.hpp:178-180
    and 196-198, over the pairs in iteration order: heap, calls, thrown *)
Fixpoint walkRows (f : walker K S) (h : heap S) (l : list (K * option nat)) : res (heap S * list (row K S) * bool) :=
  match l with
  | [] => Ok (h, [], false)
  | (_, None) :: _ => UB
  | (k, Some a) :: r =>
    let! s := hget h a in
    let (s', thrown) := f k s in
    let! h := hset h a s' in
    if thrown then Ok (h, [(k, (a, s))], true)
    else let! (h, rows, th) := walkRows f h r in Ok (h, (k, (a, s)) :: rows, th)
  end.
(** walk, HashTupleStats.hpp:131-135, StatsCube.hpp:177-181 *)
Definition owalk (f : walker K S) (st : ostate) : res (ostate * tout K S) :=
  let! l := hm_iterate (data st) in
  let! (h, rows, th) := walkRows f (mem st) l in
  Ok (mk_os (data st) h, ORows rows th).

(** operator< of std::pair<Key, StatsT *>, with NULL before all other pointers *)
Definition plt (a b : option nat) : bool :=
  match a, b with
  | None, Some _ => true
  | Some x, Some y => x <? y
  | _, None => false
  end.
Definition pairlt (a b : K * option nat) : bool :=
  klt (fst a) (fst b) || (negb (klt (fst b) (fst a)) && plt (snd a) (snd b)).
(** std::sort with it *)
Fixpoint insert (x : K * option nat) (l : list (K * option nat)) : list (K * option nat) :=
  match l with
  | [] => [x]
  | y :: r => if pairlt y x then y :: insert x r else x :: l
  end.
Fixpoint sort (l : list (K * option nat)) : list (K * option nat) :=
  match l with
  | [] => []
  | x :: r => insert x (sort r)
  end.
(** walkOrdered, HashTupleStats.hpp:141-153, StatsCube.hpp:188-199 *)
Definition owalkOrdered (f : walker K S) (st : ostate) : res (ostate * tout K S) :=
  let! l := hm_iterate (data st) in
  let! (h, rows, th) := walkRows f (mem st) (sort l) in
  Ok (mk_os (data st) h, ORows rows th).

(** The calls of zeroWalk, HashTupleStats.hpp:61-73, for the keys it goes through *)
Fixpoint zeroRows (f : walker K S) (t : map_t) (h : heap S) (ks : list K) (zero : nat) : res (heap S * list (row K S) * bool) :=
  match ks with
  | [] => Ok (h, [], false)
  | k :: r =>
    let! i := hm_find khash keq None t k in
    let! p := (if it_eqb i (ht_end t) then Ok (Some zero) else let! b := it_deref t i in Ok (snd b)) in
    match p with
    | None => UB
    | Some a =>
      let! s := hget h a in
      let (s', thrown) := f k s in
      let! h := hset h a s' in
      if thrown then Ok (h, [(k, (a, s))], true)
      else let! (h, rows, th) := zeroRows f t h r zero in Ok (h, (k, (a, s)) :: rows, th)
    end
  end.
(** walkZeros, HashTupleStats.hpp:194-205: a throwing walk function skips the delete *)
Definition owalkZeros (ks : list K) (z : S -> S) (m : made) (f : walker K S) (st : ostate) : res (ostate * tout K S) :=
  match m with
  | Threw => Ok (st, OThrown)
  | Null => UB
  | Made =>
    let (h, a) := halloc (mem st) fresh in
    let! s := hget h a in
    let! h := hset h a (z s) in
    let! (h, rows, th) := zeroRows f (data st) h ks a in
    if th then Ok (mk_os (data st) h, ORows rows true)
    else let! h := hdelete h (Some a) in Ok (mk_os (data st) h, ORows rows false)
  end.

(** prune, HashTupleStats.hpp:231-241, StatsCube.hpp:221-231 *)
Fixpoint opruneLoop (fuel : nat) (p : pruner K) (log : list (K * bool)) (st : ostate) (it : iter) : res (ostate * tout K S) :=
  if it_eqb it (ht_end (data st)) then Ok (st, OCalls log false)
  else match fuel with
       | O => Fuel
       | Datatypes.S n =>
         let! b := it_deref (data st) it in
         match p log (fst b) with
         | None => Ok (st, OCalls log true)
         | Some true =>
           let! h := hdelete (mem st) (snd b) in
           let! (t, _) := hm_remove khash keq kdef None (data st) (fst b) true in
           let! it := it_partialReset t it in
           opruneLoop n p (log ++ [(fst b, true)]) (mk_os t h) it
         | Some false =>
           let! it := it_increment (data st) it in
           opruneLoop n p (log ++ [(fst b, false)]) st it
         end
       end.
Definition oprune (p : pruner K) (st : ostate) : res (ostate * tout K S) :=
  opruneLoop (fuel_of (data st) * fuel_of (data st)) p [] st (ht_begin (data st) 0).

(** delete i->second for each entry *)
Fixpoint deleteAll (h : heap S) (l : list (K * option nat)) : res (heap S) :=
  match l with
  | [] => Ok h
  | (_, p) :: r => let! h := hdelete h p in deleteAll h r
  end.
(** clear, HashTupleStats.hpp:244-249, StatsCube.hpp:237-245 *)
Definition oclear (st : ostate) : res ostate :=
  let! l := hm_iterate (data st) in
  let! h := deleteAll (mem st) l in
  Ok (mk_os (hm_clear (data st)) h).
(** The destructor, HashTupleStats.hpp:121-123, StatsCube.hpp:90-92: the heap after it *)
Definition destroy (st : ostate) : res (heap S) :=
  let! st := oclear st in Ok (mem st).
(** The constructor, HashTupleStats.hpp:117-119 *)
Definition onew : res ostate := let! t := hm_new 2 1 in Ok (mk_os t []).

Definition ostep (st : ostate) (o : top K S) : res (ostate * tout K S) :=
  match o with
  | TTouch k g m =>
    let! (st, p) := getEntry st k m in
    match p with
    | None => Ok (st, OThrown)
    | Some a =>
      let! s := hget (mem st) a in
      let! h := hset (mem st) a (g s) in
      Ok (mk_os (data st) h, OStat a (g s))
    end
  | TDeref a => let! s := hget (mem st) a in Ok (st, OStat a s)
  | TSize => Ok (st, ONum (hm_size (data st)))
  | TLive => Ok (st, ONum (hlive (mem st)))
  | TWalk f => owalk f st
  | TWalkOrdered f => owalkOrdered f st
  | TWalkZeros ks z m f => owalkZeros ks z m f st
  | TPrune p => oprune p st
  | TClear => let! st := oclear st in Ok (st, ONone)
  end.
(** A run: outputs, and the state after it unless it stopped *)
Fixpoint orun (st : ostate) (l : list (top K S)) : list (res (tout K S)) * option ostate :=
  match l with
  | [] => ([], Some st)
  | o :: r =>
    match ostep st o with
    | Ok (st', out) => let (outs, e) := orun st' r in (Ok out :: outs, e)
    | Abort => ([Abort], None)
    | UB => ([UB], None)
    | Fuel => ([Fuel], None)
    end
  end.
(** The implicit copy constructor copies the pointers; here the destructors of an
    object and of its copy, one after the other *)
Definition destroyCopyToo (st : ostate) : res (heap S) :=
  let! h := destroy st in destroy (mk_os (data st) h).
End owned.
Arguments ostate : clear implicits.
