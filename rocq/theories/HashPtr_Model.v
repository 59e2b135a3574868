(** Model of the pointers into a HashTable that add, addOrReplace and lookup return
    (include/Lintel/HashTable.hpp:113-160): the elements live in a std::vector, whose storage
    moves when it grows. HashTable_Model has slots only; here a pointer is a slot together
    with the storage it was taken in, and a pointer into storage that was given back must not be read. *)
From Coq Require Import List Arith NArith Bool.
From Verif Require Import Common HashTable_Spec HashTable_Model.
Import ListNotations.

(** A pointer: the storage it points into (storages are numbered as they are allocated) and the slot *)
Record ptr := mk_ptr { p_store : nat; p_slot : nat }.
Definition ptr_eqb (a b : ptr) : bool := (p_store a =? p_store b) && (p_slot a =? p_slot b).

Section Ptr.
Context {D : Type}.
Variable hashfn : D -> N.
Variable equal : D -> D -> bool.
Variable default : D.
(** The capacity std::vector allocates when it is full with the given one; its policy is not specified *)
Variable grow : nat -> nat.

(** The table, chains.capacity() and the current storage of chains *)
Record vt := mk_vt { vtab : ht D; vcap : nat; vstore : nat }.
Definition vnew (num den : nat) : res vt := let! t := ht_new num den in Ok (mk_vt t 0 0).

(** *p *)
Definition at_ptr (s : vt) (t : ht D) (p : ptr) : res D :=
  if p_store p =? vstore s then deref t (p_slot p) else UB.
Definition vderef (s : vt) (p : ptr) : res D := at_ptr s (vtab s) p.
(** *p = d. The caller keeps the key ("changing the key ... will totally screw up the hash table", 135). *)
Definition vwrite (s : vt) (p : ptr) (d : D) : res vt :=
  if p_store p =? vstore s then
    let t := vtab s in
    let! (_, n) := get (chains t) (p_slot p) in
    let! cs := put (chains t) (p_slot p) (d, n) in
    Ok (mk_vt (mk_ht (free_list t) (free_list_size t) cs (entry_points t) (tcl_num t) (tcl_den t)) (vcap s) (vstore s))
  else UB.

(** chains.push_back at HashTable.hpp:577, if the operation did it: the vector moves when it was full *)
Definition pushed (s : vt) (t : ht D) : vt :=
  if vcap s <? length (chains t) then mk_vt t (grow (vcap s)) (S (vstore s)) else mk_vt t (vcap s) (vstore s).
(** chains.reserve at HashTable.hpp:502 *)
Definition reserved (s : vt) (n : N) (t : ht D) : vt :=
  if (N.of_nat (vcap s) <? n)%N then mk_vt t (N.to_nat n) (S (vstore s)) else mk_vt t (vcap s) (vstore s).

(** HashTable.hpp:116-119 add *)
Definition vadd (s : vt) (d : D) : res (vt * ptr) :=
  let! (t, i) := ht_add hashfn (vtab s) d in
  let s := pushed s t in Ok (s, mk_ptr (vstore s) i).
(** HashTable.hpp:123-133 addOrReplace *)
Definition vaddOrReplace (s : vt) (d : D) : res (vt * ptr * bool) :=
  let! (t, i, b) := ht_addOrReplace hashfn equal (vtab s) d in
  let s := pushed s t in Ok (s, mk_ptr (vstore s) i, b).
(** HashTable.hpp:137-145 lookup *)
Definition vlookup (s : vt) (k : D) : res (option ptr) :=
  let! o := ht_lookup hashfn equal (vtab s) k in Ok (option_map (mk_ptr (vstore s)) o).
(** The operations of HashTable_Model, with the storage *)
Definition vstep (s : vt) (o : top D) : res (vt * tout D) :=
  let! (t, out) := ht_step hashfn equal default (vtab s) o in
  Ok (match o with TReserve n => reserved s n t | _ => pushed s t end, out).

(** HashTable.hpp:563-590 internalAdd with [data] a reference into the table: it is read at 575
    (hte v(data, ..), before push_back) or at 585 (chains[loc].data = data) *)
Definition internalAdd_ref (s : vt) (p : ptr) (hashof : N) : res (ht D * nat) :=
  let t0 := vtab s in
  let! t := (match free_list t0 with
             | None => if overfull t0 then resizeHashTable hashfn t0 else Ok t0
             | Some _ => Ok t0
             end) in
  let! _ := invariant (0 <? length (entry_points t)) in
  let h := N.to_nat (N.modulo hashof (N.of_nat (length (entry_points t)))) in
  let! e := get (entry_points t) h in
  match free_list t with
  | None =>
    let! d := at_ptr s t p in
    let loc := length (chains t) in
    let! ep := put (entry_points t) h (Some loc) in
    Ok (mk_ht None (free_list_size t) (chains t ++ [(d, e)]) ep (tcl_num t) (tcl_den t), loc)
  | Some loc =>
    let! (_, n) := get (chains t) loc in
    let! d := at_ptr s t p in
    let! cs := put (chains t) loc (d, e) in
    let! ep := put (entry_points t) h (Some loc) in
    Ok (mk_ht n (free_list_size t - 1) cs ep (tcl_num t) (tcl_den t), loc)
  end.
(** add( *p ) *)
Definition vadd_ref (s : vt) (p : ptr) : res (vt * ptr) :=
  let! d := vderef s p in
  let! (t, i) := internalAdd_ref s p (hashfn d) in
  let s := pushed s t in Ok (s, mk_ptr (vstore s) i).
End Ptr.
Arguments vt : clear implicits.

(** HashMap<K,V> on it: pairs of key and value, HashMap.hpp:96-109 *)
Section Map.
Context {K V : Type}.
Variable khash : K -> N.
Variable kequal : K -> K -> bool.
Variable dk : K.                                       (* K() *)
Variable dv : V.                                       (* V() *)
Variable grow : nat -> nat.
Definition phash (x : K * V) : N := khash (fst x).
Definition pequal (a b : K * V) : bool := kequal (fst a) (fst b).

(** HashMap.hpp:123-132 operator[]; the reference it returns *)
Definition vindex (s : vt (K * V)) (k : K) : res (vt (K * V) * ptr) :=
  let! o := vlookup phash pequal s (k, dv) in
  match o with
  | Some p => Ok (s, p)
  | None => vadd phash grow s (k, dv)
  end.
(** *ref = v through a reference to the value *)
Definition store_value (s : vt (K * V)) (p : ptr) (v : V) : res (vt (K * V)) :=
  let! x := vderef s p in vwrite s p (fst x, v).
(** The statement m[a] = m[b] of a client. Which operator[] is called first is not specified
    before C++17. The references are used after both calls. *)
Definition assign (left_first : bool) (s : vt (K * V)) (a b : K) : res (vt (K * V) * ptr) :=
  if left_first then
    let! (s, p) := vindex s a in
    let! (s, q) := vindex s b in
    let! x := vderef s q in
    let! s := store_value s p (snd x) in Ok (s, p)
  else
    let! (s, q) := vindex s b in
    let! (s, p) := vindex s a in
    let! x := vderef s q in
    let! s := store_value s p (snd x) in Ok (s, p).
End Map.
