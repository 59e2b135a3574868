(** Property theorems for Deque (C08, C09, C56). *)
From Coq Require Import List Arith NArith ZArith Bool.
From Verif Require Import Common Deque_Spec Deque_Model Deque_Proofs Deque_Facts.
Import ListNotations.

Ltac eval_ok t := let v := eval vm_compute in t in match v with Ok ?x => x end.
(** Supplies the deque reached by a concrete history. *)
Ltac reach n ops :=
  let d0 := eval_ok (@deque_new nat n) in
  let d := eval_ok (exec_ops d_step d0 ops) in
  let s := eval_ok (exec_ops dspec (mk_ds [] (n - 1)) ops) in
  exists d; match s with mk_ds ?l ?c => try exists l; assert (deque_after n ops d l) by
    (exists d0, c; split; [vm_compute; reflexivity|]; split; [vm_compute; reflexivity|vm_compute; reflexivity]) end.

(** C08. Every client history on a new deque gives the answers of a plain list
    with the stated capacity; it aborts exactly where the specification does. *)
Theorem C08_deque_is_fifo_list :
  forall (T : Type) (n : nat) (d : deque T) (ops : list (dop T)),
  deque_new n = Ok d ->
  conforms (run_ops d_step d ops) (run_ops dspec (mk_ds [] (n - 1)) ops).
Proof. intros; apply run_rel, new_rel; auto. Qed.
Print Assumptions C08_deque_is_fifo_list.

(** Growth with a wrapped buffer. *)
Example C08_run :
  match deque_new 4 with
  | Ok d => run_ops d_step d [DPush 1; DPush 2; DPush 3; DPopFront; DPopFront; DPush 4; DPush 5; DCapacity; DPush 6;
                              DCapacity; DToList; DFront; DBack; DAt 2; DSize; DSetAt 0 9; DFront; DReserve 3]
  | _ => []
  end =
  [Ok ODUnit; Ok ODUnit; Ok ODUnit; Ok ODUnit; Ok ODUnit; Ok ODUnit; Ok ODUnit; Ok (ODNum 3); Ok ODUnit;
   Ok (ODNum 7); Ok (ODList [3; 4; 5; 6]); Ok (ODElem 3); Ok (ODElem 6); Ok (ODElem 5); Ok (ODNum 4);
   Ok ODUnit; Ok (ODElem 9); Abort].
Proof. vm_compute. reflexivity. Qed.

(** C09, the part that holds, for every deque reachable by a legal history.
    [it_at d i] is begin() incremented [i] times: it designates element [i];
    differences, comparisons, --, and -= by any in-range signed amount are exact;
    += is exact for non-negative amounts, for negative amounts that do not cross
    the start of the array, and for capacities one less than a power of two.
    Missing for C09: += by a negative amount across the start of the array. *)
Theorem C09_deque_iterators_partial :
  forall (T : Type) (n : nat) (ops : list (dop T)) (d : deque T) (l : list T),
  deque_after n ops d l ->
  it_at d (length l) = d_end d
  /\ (forall i, i < length l -> it_deref d (it_at d i) = get l i)
  /\ (forall i, i < length l -> it_dec d (it_at d (S i)) = it_at d i)
  /\ forall i j, i <= length l -> j <= length l ->
     it_diff d (it_at d i) (it_at d j) = (Z.of_nat i - Z.of_nat j)%Z
     /\ it_eq (it_at d i) (it_at d j) = (i =? j)
     /\ it_lt d (it_at d i) (it_at d j) = (i <? j)
     /\ it_le d (it_at d i) (it_at d j) = (i <=? j)
     /\ it_minus d (it_at d i) (Z.of_nat i - Z.of_nat j) = it_at d j
     /\ ((i <= j \/ (0 <= it_at d i + (Z.of_nat j - Z.of_nat i))%Z \/ ((2 ^ 64) mod Z.of_nat (S (d_capacity d)) = 0)%Z) ->
         it_plus d (it_at d i) (Z.of_nat j - Z.of_nat i) = it_at d j).
Proof. intros; eapply iterators; eauto. Qed.
Print Assumptions C09_deque_iterators_partial.

Example C09_hypothesis_met : exists d, deque_after 4 [DPush 1; DPush 2; DPush 3; DPopFront; DPopFront; DPush 4; DPush 5] d [3; 4; 5]
   /\ map (fun i => it_deref d (it_at d i)) [0; 1; 2] = [Ok 3; Ok 4; Ok 5].
Proof. reach 4 [DPush 1; DPush 2; DPush 3; DPopFront; DPopFront; DPush 4; DPush 5]. split; [assumption|vm_compute; reflexivity]. Qed.

(** C09 fails: in a deque of capacity 4 holding [3;4;5;6] (wrapped), the iterator
    at element 3 plus -2 does not designate element 1. *)
Theorem C09_negative_plus_refuted :
  exists (ops : list (dop nat)) (d : deque nat) (l : list nat) (i j : nat),
  deque_after 5 ops d l /\ i <= length l /\ j <= length l
  /\ it_plus d (it_at d i) (Z.of_nat j - Z.of_nat i) <> it_at d j
  /\ it_deref d (it_plus d (it_at d i) (Z.of_nat j - Z.of_nat i)) <> get l j.
Proof.
  exists [DPush 0; DPush 0; DPush 0; DPopFront; DPopFront; DPopFront; DPush 3; DPush 4; DPush 5; DPush 6].
  reach 5 [DPush 0; DPush 0; DPush 0; DPopFront; DPopFront; DPopFront; DPush 3; DPush 4; DPush 5; DPush 6].
  exists 3, 1. split; [assumption|]. clear.
  split; [simpl; auto|]. split; [simpl; auto|]. split; vm_compute; discriminate.
Qed.
Print Assumptions C09_negative_plus_refuted.

(** C56, the part that holds: below capacity, pushing a reference to an element
    of the deque is the same as pushing its value. *)
Theorem C56_push_own_element_partial :
  forall (T : Type) (n : nat) (ops : list (dop T)) (d : deque T) (l : list T) (i : nat) (v : T),
  deque_after n ops d l -> length l < d_capacity d -> nth_error l i = Some v ->
  exists d', d_push_back d (Cell ((q_front d + i) mod q_size d)) = Ok d' /\ d_push_back d (Outside v) = Ok d'.
Proof. intros; eapply push_self; eauto. Qed.
Print Assumptions C56_push_own_element_partial.

(** C56 fails when the deque is full: the element is read after being destroyed. *)
Theorem C56_push_own_element_refuted :
  exists (ops : list (dop nat)) (d : deque nat) (l : list nat) (i : nat) (v : nat),
  deque_after 3 ops d l /\ nth_error l i = Some v
  /\ d_push_back d (Cell ((q_front d + i) mod q_size d)) = UB /\ d_push_back d (Outside v) <> UB.
Proof.
  exists [DPush 1; DPush 2]. reach 3 [DPush 1; DPush 2]. exists 0, 1.
  split; [assumption|]. clear. split; [reflexivity|]. split; vm_compute; [reflexivity|discriminate].
Qed.
Print Assumptions C56_push_own_element_refuted.
