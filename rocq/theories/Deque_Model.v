(** Model of include/Lintel/Deque.hpp.

    The array is a list of cells, [None] for a cell holding no constructed
    object. Constructing over a live object and destroying or reading a dead
    one are both [UB] here (the first is only a leak in C++; the model is
    stricter). Sizes are natural numbers (size_t in the code); an allocation of
    2^60 or more objects (no machine has that address space) throws, which the model reports as [Abort], so that the
    sums below never reach 2^64. The iterator arithmetic, where wrap-around does
    matter, is done modulo 2^64.
    DEBUG_INVARIANTs are not executed. The destructor is not modelled. *)
From Coq Require Import List Arith NArith ZArith Bool.
From Verif Require Import Common Deque_Spec.
Import ListNotations.

Section Deque.
Context {T : Type}.
Notation mem := (list (option T)).

(** Members, Deque.hpp:299-303. *)
Record deque := mk_deque { cells : mem; q_front : nat; q_back : nat; q_size : nat }.

(** allocator.construct / destroy / plain access. *)
Definition construct (m : mem) (i : nat) (v : T) : res mem :=
  let! c := get m i in match c with None => put m i (Some v) | Some _ => UB end.
Definition destroy (m : mem) (i : nat) : res mem :=
  let! c := get m i in match c with Some _ => put m i None | None => UB end.
Definition read (m : mem) (i : nat) : res T :=
  let! c := get m i in match c with Some v => Ok v | None => UB end.
Definition assign (m : mem) (i : nat) (v : T) : res mem :=
  let! c := get m i in match c with Some _ => put m i (Some v) | None => UB end.

(** allocator.allocate(n): n raw cells. *)
Definition allocate (n : nat) : res mem :=
  if N.ltb (N.of_nat n) (2 ^ 60) then Ok (repeat None n) else Abort.

(** Deque.hpp:43-47 constructor. *)
Definition deque_new (n : nat) : res deque :=
  let! _ := invariant (1 <? n) in
  let! m := allocate n in Ok (mk_deque m 0 0 n).

(** Deque.hpp:89-90. *)
Definition d_empty (d : deque) : bool := q_front d =? q_back d.
Definition d_size (d : deque) : nat := (q_back d + q_size d - q_front d) mod q_size d.
(** Deque.hpp:104. *)
Definition d_capacity (d : deque) : nat := q_size d - 1.

(** Deque.hpp:54-65. *)
Definition d_front (d : deque) : res T := read (cells d) (q_front d).
Definition d_back (d : deque) : res T := read (cells d) ((q_back d + q_size d - 1) mod q_size d).
Definition d_at (d : deque) (pos : nat) : res T := read (cells d) ((q_front d + pos) mod q_size d).
Definition d_set_at (d : deque) (pos : nat) (v : T) : res deque :=
  let! m := assign (cells d) ((q_front d + pos) mod q_size d) v in
  Ok (mk_deque m (q_front d) (q_back d) (q_size d)).

(** Deque.hpp:66-70. *)
Definition d_pop_front (d : deque) : res deque :=
  let! m := destroy (cells d) (q_front d) in
  Ok (mk_deque m ((q_front d + 1) mod q_size d) (q_back d) (q_size d)).

(** The copy loops of push_expand (Deque.hpp:274-277, 279-283, 284-288): [n]
    iterations of  construct(new+i, old[j]); destroy(old+j); ++i; ++j. *)
Fixpoint move_range (n : nat) (new old : mem) (i j : nat) : res (mem * mem) :=
  match n with
  | O => Ok (new, old)
  | S n' => let! v := read old j in
            let! new' := construct new i v in
            let! old' := destroy old j in
            move_range n' new' old' (S i) (S j)
  end.

(** The argument of push_back is a const reference: either to an object outside
    the deque or to one of its own cells. *)
Inductive ref := Outside (v : T) | Cell (i : nat).
Definition read_ref (m : mem) (r : ref) : res T :=
  match r with Outside v => Ok v | Cell i => read m i end.

(** Deque.hpp:268-298. *)
Definition push_expand (d : deque) (val : ref) : res deque :=
  let qs := q_size d in
  let! new0 := allocate (qs * 2) in
  let! (nw, old, i) :=
    (if q_front d =? 0 then
       let! (a, b) := move_range (q_back d) new0 (cells d) 0 0 in Ok (a, b, q_back d)
     else
       let! (a, b) := move_range (qs - q_front d) new0 (cells d) 0 (q_front d) in
       let! (a', b') := move_range (q_back d) a b (qs - q_front d) 0 in
       Ok (a', b', qs - q_front d + q_back d)) in
  let! _ := invariant (i =? qs - 1) in
  let! v := read_ref old val in
  let! nw' := construct nw i v in
  Ok (mk_deque nw' 0 (i + 1) (qs * 2)).

(** Deque.hpp:71-79. *)
Definition d_push_back (d : deque) (val : ref) : res deque :=
  let back_next := (q_back d + 1) mod q_size d in
  if negb (back_next =? q_front d) then
    let! v := read_ref (cells d) val in
    let! m := construct (cells d) (q_back d) v in
    Ok (mk_deque m (q_front d) back_next (q_size d))
  else push_expand d val.

(** Deque.hpp:81-87. *)
Fixpoint d_push_all (d : deque) (vs : list T) : res deque :=
  match vs with
  | [] => Ok d
  | v :: r => let! d' := d_push_back d (Outside v) in d_push_all d' r
  end.

(** Deque.hpp:93-102. *)
Definition d_reserve (d : deque) (new_size : nat) : res deque :=
  let! _ := invariant (d_empty d) in
  let! _ := invariant (0 <? new_size) in
  let! m := allocate (new_size + 1) in
  Ok (mk_deque m 0 0 (new_size + 1)).

(** for(i = from; i < to; ++i) allocator.destroy(deque + i), [n] = to - from. *)
Fixpoint destroy_range (n : nat) (m : mem) (i : nat) : res mem :=
  match n with
  | O => Ok m
  | S n' => let! m' := destroy m i in destroy_range n' m' (S i)
  end.

(** Deque.hpp:246-260. *)
Definition d_clear (d : deque) : res deque :=
  let! m := (if d_empty d then Ok (cells d) else
             let max := if q_front d <? q_back d then q_back d else q_size d in
             let! m1 := destroy_range (max - q_front d) (cells d) (q_front d) in
             if q_back d <? q_front d then destroy_range (q_back d) m1 0 else Ok m1) in
  Ok (mk_deque m 0 0 (q_size d)).

(** ** Iterators, Deque.hpp:107-244: the position in the array. All size_t
    arithmetic is modulo 2^64; a ptrdiff_t operand converts to size_t. *)
Definition w64 : Z := 2 ^ 64.
Definition u64 (z : Z) : Z := z mod w64.
Notation qs d := (Z.of_nat (q_size d)).

Definition d_begin (d : deque) : Z := Z.of_nat (q_front d).
Definition d_end (d : deque) : Z := Z.of_nat (q_back d).
(** 135-138 *)
Definition it_deref (d : deque) (p : Z) : res T := read (cells d) (Z.to_nat p).
(** 222-225 *)
Definition it_inc (d : deque) (p : Z) : Z := u64 (p + 1) mod qs d.
(** 226-229 *)
Definition it_dec (d : deque) (p : Z) : Z := u64 (p + qs d - 1) mod qs d.
(** 163-166, 194-198: operator+ and operator+= *)
Definition it_plus (d : deque) (p diff : Z) : Z := u64 (p + diff) mod qs d.
(** 168-172, 200-205: operator- and operator-= *)
Definition it_minus (d : deque) (p diff : Z) : Z := u64 (p + qs d - diff) mod qs d.
(** 231-233 *)
Definition logicalOffset (d : deque) (p : Z) : Z := u64 (p - Z.of_nat (q_front d) + qs d) mod qs d.
(** 207-210 *)
Definition it_diff (d : deque) (p q : Z) : Z := logicalOffset d p - logicalOffset d q.
(** 125-133, 174-192 *)
Definition it_eq (p q : Z) : bool := Z.eqb p q.
Definition it_lt (d : deque) (p q : Z) : bool := Z.ltb (logicalOffset d p) (logicalOffset d q).
Definition it_le (d : deque) (p q : Z) : bool := Z.leb (logicalOffset d p) (logicalOffset d q).

(** for(i = begin(); i != end(); ++i) collect( *i ). *)
Fixpoint it_loop (fuel : nat) (d : deque) (p : Z) : res (list T) :=
  if it_eq p (d_end d) then Ok []
  else match fuel with
       | O => Fuel
       | S f => let! v := it_deref d p in
                let! r := it_loop f d (it_inc d p) in Ok (v :: r)
       end.

(** One client operation. *)
Definition d_step (d : deque) (o : dop T) : res (deque * dout T) :=
  match o with
  | DPush v => let! d' := d_push_back d (Outside v) in Ok (d', ODUnit)
  | DPushAll vs => let! d' := d_push_all d vs in Ok (d', ODUnit)
  | DPopFront => let! d' := d_pop_front d in Ok (d', ODUnit)
  | DFront => let! v := d_front d in Ok (d, ODElem v)
  | DBack => let! v := d_back d in Ok (d, ODElem v)
  | DAt pos => let! v := d_at d pos in Ok (d, ODElem v)
  | DSetAt pos v => let! d' := d_set_at d pos v in Ok (d', ODUnit)
  | DSize => Ok (d, ODNum (d_size d))
  | DEmpty => Ok (d, ODBool (d_empty d))
  | DCapacity => Ok (d, ODNum (d_capacity d))
  | DReserve n => let! d' := d_reserve d n in Ok (d', ODUnit)
  | DClear => let! d' := d_clear d in Ok (d', ODUnit)
  | DToList => let! l := it_loop (q_size d) d (d_begin d) in Ok (d, ODList l)
  end.
End Deque.
Arguments deque : clear implicits.
Arguments ref : clear implicits.
