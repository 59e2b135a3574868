(** Model of include/Lintel/PriorityQueue.hpp.

    The array [pq] is a list whose length is the allocated size; "new T[n]"
    default-constructs. Indices and pq_size are natural numbers (uint32_t in the
    code; the theorems bound the number of operations by 2^31 so that 2*i+2 does
    not wrap); the size computed by double_size does wrap modulo 2^32.
    Allocation succeeds. DEBUG_SINVARIANTs are not executed. Arguments
    are values; references into the queue passed to push/replaceTop are modelled in
    PQRef_Model. *)
From Coq Require Import List Arith NArith Bool.
From Verif Require Import Common PriorityQueue_Spec.
Import ListNotations.

Section PQ.
Context {T : Type}.
Variable li : T -> T -> bool.        (* LessImportant, PriorityQueue.hpp:51 *)
Variable dflt : T.                   (* T() *)

(** Members, PriorityQueue.hpp:230-232. *)
Record pqueue := mk_pq { size_available : N; pq_size : nat; pq : list T }.

(** "new T[n]" *)
Definition new_array (n : N) : list T := repeat dflt (N.to_nat n).

(** PriorityQueue.hpp:54-62; initial_size is an int, a negative one throws. *)
Definition pq_new (initial_size : N) : pqueue := mk_pq initial_size 0 (new_array initial_size).

(** PriorityQueue.hpp:70-71 *)
Definition pq_top (q : pqueue) : res T := get (pq q) 0.

(** The while(1) loop of pop, PriorityQueue.hpp:78-94; [n] is the already
    decremented pq_size. Returns the array and the final cur_pos. *)
Fixpoint pop_loop (fuel : nat) (a : list T) (n cur_pos : nat) : res (list T * nat) :=
  match fuel with
  | O => Fuel
  | S f =>
    let down_left := 2 * cur_pos + 1 in
    if n <=? down_left then Ok (a, cur_pos) else
    let down_right := down_left + 1 in
    let! dl := get a down_left in
    let! smaller_down :=
      (if down_right <? n then
         let! dr := get a down_right in
         Ok (if negb (li dr dl) then down_right else down_left)
       else Ok down_left) in
    let! back := get a n in
    let! d := get a smaller_down in
    if negb (li back d) then Ok (a, cur_pos)
    else let! a' := put a cur_pos d in pop_loop f a' n smaller_down
  end.

(** PriorityQueue.hpp:73-97. pop on an empty queue wraps pq_size: UB here. *)
Definition pq_pop (q : pqueue) : res pqueue :=
  match pq_size q with
  | O => UB
  | S n =>
    if 0 <? n then
      let! (a, cur_pos) := pop_loop n (pq q) n 0 in
      let! back := get a n in
      let! a' := put a cur_pos back in
      Ok (mk_pq (size_available q) n a')
    else Ok (mk_pq (size_available q) n (pq q))
  end.

(** The downward loop of pop_bottom_up_heuristic, PriorityQueue.hpp:112-121.
    Returns the array and the hole. *)
Fixpoint bu_down (fuel : nat) (a : list T) (n hole down : nat) : res (list T * nat) :=
  match fuel with
  | O => Fuel
  | S f =>
    if down <? n then
      let! down' :=
        (if down + 1 =? n then Ok down
         else let! r := get a (down + 1) in
              let! l := get a down in
              Ok (if li r l then down else down + 1)) in
      let! d := get a down' in
      let! a' := put a hole d in
      bu_down f a' n down' (2 * down' + 1)
    else Ok (a, hole)
  end.

(** The upward loop, 127-132. [back] is read through a reference to
    pq[pq_size - 1], i.e. afresh at each iteration. up = (hole - 1)/2 in uint32_t:
    for hole = 0 it is 2^31 - 1, outside the array. *)
Fixpoint bu_up (fuel : nat) (a : list T) (bpos hole : nat) : res (list T * nat) :=
  match fuel with
  | O => Fuel
  | S f =>
    match hole with
    | O => UB
    | S h =>
      let up := h / 2 in
      let! back := get a bpos in
      let! u := get a up in
      if negb (li back u) then let! a' := put a hole u in bu_up f a' bpos up
      else Ok (a, hole)
    end
  end.

(** PriorityQueue.hpp:107-137 *)
Definition pq_pop_bottom_up (q : pqueue) : res pqueue :=
  match pq_size q with
  | O => UB
  | S n =>
    let! (a, hole) := bu_down (S (S n)) (pq q) (S n) 0 1 in
    let! (a1, hole1) :=
      (if 0 <? hole then
         let! back := get a n in
         let! _ := invariant (li back back) in
         bu_up (S (S n)) a n hole
       else Ok (a, hole)) in
    let! back := get a1 n in
    let! a2 := put a1 hole1 back in
    Ok (mk_pq (size_available q) n a2)
  end.

(** The copy loop of double_size. *)
Definition copy_into (new old : list T) (n : nat) : res (list T) :=
  if (n <=? length old) && (n <=? length new) then Ok (firstn n old ++ skipn n new) else UB.

(** PriorityQueue.hpp:221-229 *)
Definition double_size (q : pqueue) : res pqueue :=
  let sz := N.modulo (size_available q * 2) (2 ^ 32) in
  let! a := copy_into (new_array sz) (pq q) (N.to_nat (size_available q)) in
  Ok (mk_pq sz (pq_size q) a).

(** The loop of push, PriorityQueue.hpp:144-152. *)
Fixpoint push_loop (fuel : nat) (a : list T) (val : T) (end_pos : nat) : res (list T * nat) :=
  match end_pos with
  | O => Ok (a, O)
  | S e =>
    match fuel with
    | O => Fuel
    | S f =>
      let up_pos := e / 2 in
      let! u := get a up_pos in
      if negb (li val u) then let! a' := put a end_pos u in push_loop f a' val up_pos
      else Ok (a, end_pos)
    end
  end.

(** PriorityQueue.hpp:139-155 *)
Definition pq_push (q0 : pqueue) (val : T) : res pqueue :=
  let! q := (if N.eqb (N.of_nat (pq_size q0)) (size_available q0) then double_size q0 else Ok q0) in
  let! (a, end_pos) := push_loop (pq_size q) (pq q) val (pq_size q) in
  let! a' := put a end_pos val in
  Ok (mk_pq (size_available q) (S (pq_size q)) a').

(** The loop of replaceTop, PriorityQueue.hpp:161-178. *)
Fixpoint replace_loop (fuel : nat) (a : list T) (n : nat) (val : T) (cur_pos : nat) : res (list T * nat) :=
  match fuel with
  | O => Fuel
  | S f =>
    let down_left := 2 * cur_pos + 1 in
    if n <=? down_left then Ok (a, cur_pos) else
    let down_right := down_left + 1 in
    let! dl := get a down_left in
    let! down :=
      (if down_right <? n then
         let! dr := get a down_right in
         Ok (if li dl dr then down_right else down_left)
       else Ok down_left) in
    let! d := get a down in
    if li val d then let! a' := put a cur_pos d in replace_loop f a' n val down
    else Ok (a, cur_pos)
  end.

(** PriorityQueue.hpp:159-181 *)
Definition pq_replaceTop (q : pqueue) (val : T) : res pqueue :=
  let! (a, cur_pos) := replace_loop (S (pq_size q)) (pq q) (pq_size q) val 0 in
  let! a' := put a cur_pos val in
  Ok (mk_pq (size_available q) (pq_size q) a').

(** PriorityQueue.hpp:183-193 *)
Definition pq_empty (q : pqueue) : bool := pq_size q =? 0.
Definition pq_clear (q : pqueue) : pqueue := mk_pq (size_available q) 0 (pq q).

(** PriorityQueue.hpp:195-203 *)
Definition pq_reserve (q : pqueue) (amt : nat) : res pqueue :=
  let! _ := invariant (pq_empty q) in
  if pq_size q <? amt then Ok (mk_pq (N.of_nat amt) (pq_size q) (new_array (N.of_nat amt))) else Ok q.

(** PriorityQueue.hpp:205-214: [fuel] iterations from [i]. *)
Fixpoint verify_loop (fuel : nat) (a : list T) (n i : nat) : res unit :=
  match fuel with
  | O => Ok tt
  | S f =>
    let down_left := 2 * i + 1 in
    if n <=? down_left then Ok tt else
    let! x := get a i in
    let! l := get a down_left in
    let! _ := invariant (negb (li x l)) in
    let down_right := down_left + 1 in
    if n <=? down_right then Ok tt else
    let! r := get a down_right in
    let! _ := invariant (negb (li x r)) in
    verify_loop f a n (S i)
  end.
Definition pq_selfVerify (q : pqueue) : res unit := verify_loop (pq_size q) (pq q) (pq_size q) 0.

(** while(!empty()) { collect(top()); pop(); } *)
Fixpoint drain (fuel : nat) (q : pqueue) : res (list T * pqueue) :=
  if pq_empty q then Ok ([], q)
  else match fuel with
       | O => Fuel
       | S f => let! x := pq_top q in
                let! q' := pq_pop q in
                let! (r, q'') := drain f q' in Ok (x :: r, q'')
       end.

(** One client operation. *)
Definition pq_step (q : pqueue) (o : pqop T) : res (pqueue * pqout T) :=
  match o with
  | PPush v => let! q' := pq_push q v in Ok (q', QUnit)
  | PTop => let! x := pq_top q in Ok (q, QElem x)
  | PPop => let! x := pq_top q in let! q' := pq_pop q in Ok (q', QElem x)
  | PPopBottomUp => let! x := pq_top q in let! q' := pq_pop_bottom_up q in Ok (q', QElem x)
  | PReplaceTop v => let! x := pq_top q in let! q' := pq_replaceTop q v in Ok (q', QElem x)
  | PDrain => let! (l, q') := drain (pq_size q) q in Ok (q', QList l)
  | PSize => Ok (q, QNum (pq_size q))
  | PEmpty => Ok (q, QBool (pq_empty q))
  | PClear => Ok (pq_clear q, QUnit)
  | PReserve amt => let! q' := pq_reserve q amt in Ok (q', QUnit)
  end.
End PQ.
Arguments pqueue : clear implicits.
