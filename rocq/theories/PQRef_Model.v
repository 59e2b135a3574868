(** Model of include/Lintel/PriorityQueue.hpp when push and replaceTop are
    given a reference to an element of the queue itself, which top() and
    PQ_Begin() hand out. PriorityQueue_Model passes values; here the argument
    "const T &val" is an index into the array, read afresh at every use. *)
From Coq Require Import List Arith NArith Bool.
From Verif Require Import Common PriorityQueue_Spec PriorityQueue_Model.
Import ListNotations.

Section PQRef.
Context {T : Type}.
Variable li : T -> T -> bool.        (* LessImportant, PriorityQueue.hpp:51 *)

(** The loop of push, PriorityQueue.hpp:144-152, with val = pq[ref]. *)
Fixpoint push_ref_loop (fuel : nat) (a : list T) (ref end_pos : nat) : res (list T * nat) :=
  match end_pos with
  | O => Ok (a, O)
  | S e =>
    match fuel with
    | O => Fuel
    | S f =>
      let up_pos := e / 2 in
      let! val := get a ref in
      let! u := get a up_pos in
      if negb (li val u) then let! a' := put a end_pos u in push_ref_loop f a' ref up_pos
      else Ok (a, end_pos)
    end
  end.

(** push(pq[ref]), PriorityQueue.hpp:139-155. When the array is full,
    double_size (221-229) deletes the array that val refers to, and line 153 at
    the latest reads val. *)
Definition pq_push_ref (q : pqueue T) (ref : nat) : res (pqueue T) :=
  if N.eqb (N.of_nat (pq_size q)) (size_available q) then UB
  else
    let! (a, end_pos) := push_ref_loop (pq_size q) (pq q) ref (pq_size q) in
    let! val := get a ref in
    let! a' := put a end_pos val in
    Ok (mk_pq (size_available q) (S (pq_size q)) a').

(** The loop of replaceTop, PriorityQueue.hpp:161-178, with val = pq[ref]. *)
Fixpoint replace_ref_loop (fuel : nat) (a : list T) (n ref cur_pos : nat) : res (list T * nat) :=
  match fuel with
  | O => Fuel
  | S f =>
    let down_left := 2 * cur_pos + 1 in
    if n <=? down_left then Ok (a, cur_pos) else
    let down_right := down_left + 1 in
    let! dl := get a down_left in
    let! down :=
      (if down_right <? n then
         let! dr := get a down_right in
         Ok (if li dl dr then down_right else down_left)
       else Ok down_left) in
    let! val := get a ref in
    let! d := get a down in
    if li val d then let! a' := put a cur_pos d in replace_ref_loop f a' n ref down
    else Ok (a, cur_pos)
  end.

(** replaceTop(pq[ref]), PriorityQueue.hpp:159-181 *)
Definition pq_replaceTop_ref (q : pqueue T) (ref : nat) : res (pqueue T) :=
  let! (a, cur_pos) := replace_ref_loop (S (pq_size q)) (pq q) (pq_size q) ref 0 in
  let! val := get a ref in
  let! a' := put a cur_pos val in
  Ok (mk_pq (size_available q) (pq_size q) a').

(** top() = w: top() returns a reference to pq[0], PriorityQueue.hpp:70. *)
Definition pq_assign_top (q : pqueue T) (w : T) : res (pqueue T) :=
  let! a := put (pq q) 0 w in Ok (mk_pq (size_available q) (pq_size q) a).
End PQRef.
