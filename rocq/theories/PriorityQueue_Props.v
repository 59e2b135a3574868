(** Property theorems for PriorityQueue (C10, C11, C12, C57). *)
From Coq Require Import List Arith NArith Bool Lia Permutation.
From Coq Require Import ZifyBool ZifyNat ZifyN.
From Verif Require Import Common PriorityQueue_Spec PriorityQueue_Model PriorityQueue_Proofs PriorityQueue_Facts.
Import ListNotations.

(** [le] is a total preorder. *)
Definition total_preorder {T} (le : T -> T -> bool) : Prop :=
  (forall a b, le a b = true \/ le b a = true) /\ (forall a b c, le a b = true -> le b c = true -> le a c = true).
(** The comparator handed to the queue is [le] itself (std::less_equal) or its
    strict part (std::less). *)
Definition comparator_for {T} (le li : T -> T -> bool) : Prop :=
  (forall a b, li a b = le a b) \/ (forall a b, li a b = negb (le b a)).

Lemma cmp_le {T} (le li : T -> T -> bool) : total_preorder le -> comparator_for le li -> forall a b, li a b = true -> le a b = true.
Proof. intros (Ht & _) [H|H] a b; rewrite H; auto. intros E. destruct (Ht a b) as [X|X]; auto. rewrite X in E. discriminate. Qed.
Lemma cmp_ge {T} (le li : T -> T -> bool) : total_preorder le -> comparator_for le li -> forall a b, li a b = false -> le b a = true.
Proof. intros (Ht & _) [H|H] a b; rewrite H.
  - intros E. destruct (Ht a b) as [X|X]; auto. congruence.
  - intros E. now apply negb_false_iff in E. Qed.
Lemma nat_le_preorder : total_preorder Nat.leb.
Proof. split; intros; lia. Qed.

(** C10. Every history on a queue built with a positive initial size observes
    the behaviour of a multiset: top is most important, pop/replaceTop take
    out exactly the element top reported, draining is sorted, nothing is lost.
    pop_bottom_up_heuristic requires the <= form of the comparator, as its
    SINVARIANT states. *)
Theorem C10_priority_queue :
  forall (T : Type) (le li : T -> T -> bool) (dflt : T) (initial_size : N) (ops : list (pqop T)),
  total_preorder le -> comparator_for le li ->
  (existsb is_bottom_up ops = false \/ forall a b, li a b = le a b) ->
  (0 < initial_size)%N -> (N.of_nat (length ops) <= 2 ^ 31)%N ->
  pqhist le [] ops (run_ops (pq_step li dflt) (pq_new dflt initial_size) ops).
Proof.
  intros T le li dflt n ops Hp Hc Hb Hn Hl. destruct (Hp) as (Ht & Htr).
  apply (hist_rep le li dflt Ht Htr (cmp_le le li Hp Hc) (cmp_ge le li Hp Hc)); auto. apply (new_rep le li dflt Ht Htr (cmp_le le li Hp Hc) (cmp_ge le li Hp Hc)); auto.
Qed.
Print Assumptions C10_priority_queue.

Example C10_run :
  run_ops (pq_step Nat.leb 0) (pq_new 0 2)
    [PPush 3; PPush 5; PPush 5; PPush 1; PTop; PPop; PReplaceTop 4; PPopBottomUp; PSize; PPush 9; PPush 2; PDrain; PEmpty; PReserve 10; PPush 1; PReserve 4]
  = [Ok QUnit; Ok QUnit; Ok QUnit; Ok QUnit; Ok (QElem 5); Ok (QElem 5); Ok (QElem 5); Ok (QElem 4); Ok (QNum 2); Ok QUnit; Ok QUnit;
     Ok (QList [9; 3; 2; 1]); Ok (QBool true); Ok QUnit; Ok QUnit; Abort].
Proof. vm_compute. reflexivity. Qed.
Example C10_run_strict :
  run_ops (pq_step Nat.ltb 0) (pq_new 0 1) [PPush 3; PPush 5; PPush 5; PPush 1; PPop; PReplaceTop 4; PDrain]
  = [Ok QUnit; Ok QUnit; Ok QUnit; Ok QUnit; Ok (QElem 5); Ok (QElem 5); Ok (QList [4; 3; 1])]
  /\ comparator_for Nat.leb Nat.ltb.
Proof. split; [vm_compute; reflexivity|]. right. intros a b. lia. Qed.

(** [q] was reached by a client history from a new queue. *)
Definition queue_after {T} (li : T -> T -> bool) (dflt : T) (initial_size : N) (ops : list (pqop T)) (q : pqueue T) : Prop :=
  exec_ops (pq_step li dflt) (pq_new dflt initial_size) ops = Ok q.
(** The queued elements. *)
Definition contents {T} (q : pqueue T) : list T := firstn (pq_size q) (pq q).

(** C11. *)
Theorem C11_replaceTop_is_pop_push :
  forall (T : Type) (le li : T -> T -> bool) (dflt : T) (initial_size : N) (ops : list (pqop T)) (q : pqueue T) (v : T),
  total_preorder le -> comparator_for le li ->
  (existsb is_bottom_up ops = false \/ forall a b, li a b = le a b) ->
  (0 < initial_size)%N -> (N.of_nat (length ops) < 2 ^ 31)%N ->
  queue_after li dflt initial_size ops q -> pq_empty q = false ->
  exists q1 q2 q3, pq_replaceTop li q v = Ok q1 /\ pq_pop li q = Ok q2 /\ pq_push li dflt q2 v = Ok q3
   /\ Permutation (contents q1) (contents q3)
   /\ exists x y, pq_top q1 = Ok x /\ pq_top q3 = Ok y /\ le x y = true /\ le y x = true.
Proof.
  intros T le li dflt n ops q v Hp Hc Hb Hn Hl Hq He. destruct (Hp) as (Ht & Htr).
  destruct (exec_rep le li dflt Ht Htr (cmp_le le li Hp Hc) (cmp_ge le li Hp Hc) ops _ [] q (new_rep le li dflt Ht Htr (cmp_le le li Hp Hc) (cmp_ge le li Hp Hc) n Hn)) as (l & R & Hll); auto.
  - simpl. lia.
  - simpl in Hll. apply (replace_is_pop_push le li dflt Ht Htr (cmp_le le li Hp Hc) (cmp_ge le li Hp Hc) q l v R); [|lia].
    intros ->. apply (RepQ_len le li dflt Ht Htr (cmp_le le li Hp Hc) (cmp_ge le li Hp Hc)) in R. simpl in R. unfold pq_empty in He. lia.
Qed.
Print Assumptions C11_replaceTop_is_pop_push.

(** C12, the part that holds: with a positive initial size no reachable queue's
    push writes outside the array. *)
Theorem C12_push_in_bounds_partial :
  forall (T : Type) (le li : T -> T -> bool) (dflt : T) (initial_size : N) (ops : list (pqop T)) (q : pqueue T) (v : T),
  total_preorder le -> comparator_for le li ->
  (existsb is_bottom_up ops = false \/ forall a b, li a b = le a b) ->
  (0 < initial_size)%N -> (N.of_nat (length ops) < 2 ^ 31)%N ->
  queue_after li dflt initial_size ops q ->
  exists q', pq_push li dflt q v = Ok q' /\ Permutation (contents q') (v :: contents q).
Proof.
  intros T le li dflt n ops q v Hp Hc Hb Hn Hl Hq. destruct (Hp) as (Ht & Htr).
  destruct (exec_rep le li dflt Ht Htr (cmp_le le li Hp Hc) (cmp_ge le li Hp Hc) ops _ [] q (new_rep le li dflt Ht Htr (cmp_le le li Hp Hc) (cmp_ge le li Hp Hc) n Hn)) as (l & R & Hll); auto.
  - simpl; lia.
  - simpl in Hll. destruct (push_rep le li dflt Ht Htr (cmp_le le li Hp Hc) (cmp_ge le li Hp Hc) q l v R ltac:(lia)) as (q' & E & R').
    exists q'. split; auto. unfold contents. destruct R as (_ & _ & _ & _ & P). destruct R' as (_ & _ & _ & _ & P'). now rewrite P, P'.
Qed.
Print Assumptions C12_push_in_bounds_partial.

(** The default initial size is 1024/sizeof(T), which is 0 for elements larger
    than 1 KiB; then (and for initial_size = 0) the first push writes outside. *)
Theorem C12_push_in_bounds_refuted :
  forall (T : Type) (li : T -> T -> bool) (dflt v : T), pq_push li dflt (pq_new dflt (1024 / 1025)) v = UB.
Proof. reflexivity. Qed.
Print Assumptions C12_push_in_bounds_refuted.

Example C11_C12_hypotheses_met :
  exists q, queue_after Nat.leb 0 1 [PPush 2; PPush 7; PPush 3; PPop] q /\ pq_empty q = false /\ contents q = [3; 2]
   /\ size_available q = 4%N.
Proof.
  let q := eval vm_compute in (exec_ops (pq_step Nat.leb 0) (pq_new 0 1) [PPush 2; PPush 7; PPush 3; PPop]) in
  match q with Ok ?x => exists x end. repeat split; vm_compute; reflexivity. Qed.

(** C57. selfVerify never aborts on a queue a client can build, provided the
    comparator is strict ... *)
Theorem C57_selfVerify_partial :
  forall (T : Type) (le li : T -> T -> bool) (dflt : T) (initial_size : N) (ops : list (pqop T)) (q : pqueue T),
  total_preorder le -> (forall a b, li a b = negb (le b a)) ->
  existsb is_bottom_up ops = false ->
  (0 < initial_size)%N -> (N.of_nat (length ops) < 2 ^ 31)%N ->
  queue_after li dflt initial_size ops q -> pq_selfVerify li q = Ok tt.
Proof.
  intros T le li dflt n ops q Hp Hc Hb Hn Hl Hq. destruct (Hp) as (Ht & Htr).
  assert (Hc' : comparator_for le li) by now right.
  destruct (exec_rep le li dflt Ht Htr (cmp_le le li Hp Hc') (cmp_ge le li Hp Hc') ops _ [] q (new_rep le li dflt Ht Htr (cmp_le le li Hp Hc') (cmp_ge le li Hp Hc') n Hn)) as (l & R & Hll); auto.
  - simpl; lia.
  - eapply (verify_ok le li dflt Ht Htr (cmp_le le li Hp Hc') (cmp_ge le li Hp Hc')); eauto.
Qed.
Print Assumptions C57_selfVerify_partial.

(** ... and does abort with the default comparator as soon as equal elements
    are parent and child. *)
Theorem C57_selfVerify_refuted :
  exists (q : pqueue nat), queue_after Nat.leb 0 256 [PPush 4; PPush 4] q /\ pq_selfVerify Nat.leb q = Abort.
Proof.
  let q := eval vm_compute in (exec_ops (pq_step Nat.leb 0) (pq_new 0 256) [PPush 4; PPush 4]) in
  match q with Ok ?x => exists x end. split; vm_compute; reflexivity. Qed.
Print Assumptions C57_selfVerify_refuted.
