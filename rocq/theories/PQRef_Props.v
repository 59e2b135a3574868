(** Property theorems for references into a PriorityQueue (C91). *)
From Coq Require Import List Arith NArith Bool Lia Permutation.
From Coq Require Import ZifyBool ZifyNat ZifyN.
From Verif Require Import Common PriorityQueue_Spec PriorityQueue_Model PriorityQueue_Proofs PriorityQueue_Facts PriorityQueue_Props PQRef_Model PQRef_Proofs.
Import ListNotations.

Lemma reached {T} (le li : T -> T -> bool) (dflt : T) n ops q :
  total_preorder le -> comparator_for le li -> (existsb is_bottom_up ops = false \/ forall a b, li a b = le a b) ->
  (0 < n)%N -> (N.of_nat (length ops) < 2 ^ 31)%N -> queue_after li dflt n ops q ->
  exists l, RepQ le dflt q l /\ (N.of_nat (length l) < 2 ^ 31)%N.
Proof.
  intros Hp Hc Hb Hn Hl Hq. destruct (Hp) as (Ht & Htr).
  destruct (exec_rep le li dflt Ht Htr (cmp_le le li Hp Hc) (cmp_ge le li Hp Hc) ops _ [] q (new_rep le li dflt Ht Htr (cmp_le le li Hp Hc) (cmp_ge le li Hp Hc) n Hn)) as (l & R & Hll); auto.
  - simpl; lia.
  - exists l. split; auto. simpl in Hll. lia.
Qed.

(** C91. push of a reference to an element of the queue adds a copy of that element, as if
    it had been passed by value, while there is room, if the reference is to top(), or the
    comparator is of the <= kind, or equally important elements are equal. Missing: a full
    queue (C91_push_full_refuted) and strict comparators with ties (C91_push_tie_refuted). *)
Theorem C91_push_own_partial :
  forall (T : Type) (le li : T -> T -> bool) (dflt : T) (initial_size : N) (ops : list (pqop T)) (q : pqueue T) (i : nat) (v : T),
  total_preorder le -> comparator_for le li ->
  (existsb is_bottom_up ops = false \/ forall a b, li a b = le a b) ->
  (0 < initial_size)%N -> (N.of_nat (length ops) < 2 ^ 31)%N ->
  queue_after li dflt initial_size ops q ->
  nth_error (contents q) i = Some v -> (N.of_nat (length (contents q)) < size_available q)%N ->
  i = 0 \/ (forall a b, li a b = le a b) \/ (forall a b, le a b = true -> le b a = true -> a = b) ->
  exists q', pq_push_ref li q i = Ok q' /\ pq_push li dflt q v = Ok q' /\ Permutation (contents q') (v :: contents q).
Proof.
  intros T le li dflt n ops q i v Hp Hc Hb Hn Hl Hq Hv Hs Hk. destruct (Hp) as (Ht & Htr).
  destruct (reached le li dflt n ops q Hp Hc Hb Hn Hl Hq) as (l & R & Hll).
  destruct (C12_push_in_bounds_partial T le li dflt n ops q v Hp Hc Hb Hn Hl Hq) as (q' & E & P).
  exists q'. assert (R' := R). destruct R' as (L & S1 & _).
  assert (Hi : i < pq_size q). { assert (X : i < length (contents q)) by (apply nth_error_Some; congruence). unfold contents in X. rewrite firstn_length in X. lia. }
  assert (Ev : nth i (pq q) dflt = v).
  { rewrite <- (g_firstn le li dflt Ht Htr (cmp_le le li Hp Hc) (cmp_ge le li Hp Hc) (pq q) (pq_size q) i Hi). now apply nth_error_nth. }
  split; [|now split]. rewrite <- E, <- Ev.
  apply (push_ref_value le li dflt Ht Htr (cmp_le le li Hp Hc) (cmp_ge le li Hp Hc) q l i R Hi); auto.
  unfold contents in Hs. rewrite firstn_length in Hs. lia.
Qed.
Print Assumptions C91_push_own_partial.
Example C91_push_own_example :
  exists q q', queue_after Nat.leb 0 1 [PPush 2; PPush 7; PPush 3] q /\ nth_error (contents q) 2 = Some 3 /\ size_available q = 4%N
   /\ pq_push_ref Nat.leb q 2 = Ok q' /\ contents q' = [7; 3; 3; 2].
Proof.
  let q := eval vm_compute in (exec_ops (pq_step Nat.leb 0) (pq_new 0 1) [PPush 2; PPush 7; PPush 3]) in
  match q with Ok ?x => exists x; let r := eval vm_compute in (pq_push_ref Nat.leb x 2) in match r with Ok ?y => exists y end end.
  repeat split; vm_compute; reflexivity. Qed.

(** A full queue deletes its array before it reads the argument: push(top()) on it is
    undefined, for every element and comparator. *)
Theorem C91_push_full_refuted :
  forall (T : Type) (li : T -> T -> bool) (q : pqueue T) (i : nat),
  N.of_nat (pq_size q) = size_available q -> pq_push_ref li q i = UB.
Proof. intros T li q i H. unfold pq_push_ref. now rewrite (proj2 (N.eqb_eq _ _) H). Qed.
Print Assumptions C91_push_full_refuted.
Example C91_push_full_example :
  exists q, queue_after Nat.leb 0 1 [PPush 2; PPush 7] q /\ pq_top q = Ok 7 /\ pq_push_ref Nat.leb q 0 = UB.
Proof.
  let q := eval vm_compute in (exec_ops (pq_step Nat.leb 0) (pq_new 0 1) [PPush 2; PPush 7]) in
  match q with Ok ?x => exists x end. repeat split; vm_compute; reflexivity. Qed.

(** With a strict comparator and ties, another element than the one passed may be added:
    here (1, 20) is passed and (1, 30) is in the queue twice. *)
Definition by_key (a b : nat * nat) : bool := fst a <? fst b.
Theorem C91_push_tie_refuted :
  exists q q', queue_after by_key (0, 0) 8 [PPush (1, 20); PPush (1, 10); PPush (1, 30)] q
   /\ nth_error (contents q) 1 = Some (1, 20) /\ pq_push_ref by_key q 1 = Ok q'
   /\ contents q' = [(1, 30); (1, 30); (1, 10); (1, 20)].
Proof.
  let q := eval vm_compute in (exec_ops (pq_step by_key (0, 0)) (pq_new (0, 0) 8) [PPush (1, 20); PPush (1, 10); PPush (1, 30)]) in
  match q with Ok ?x => exists x; let r := eval vm_compute in (pq_push_ref by_key x 1) in match r with Ok ?y => exists y end end.
  repeat split; vm_compute; reflexivity. Qed.
Print Assumptions C91_push_tie_refuted.

(** Changing the best element in place and calling replaceTop(top()) to put it where it now
    belongs: this works if it stays at the top, *)
Theorem C91_update_top_partial :
  forall (T : Type) (le li : T -> T -> bool) (dflt : T) (initial_size : N) (ops : list (pqop T)) (q : pqueue T) (x w : T) (rest : list T),
  total_preorder le -> comparator_for le li ->
  (existsb is_bottom_up ops = false \/ forall a b, li a b = le a b) ->
  (0 < initial_size)%N -> (N.of_nat (length ops) < 2 ^ 31)%N ->
  queue_after li dflt initial_size ops q -> contents q = x :: rest ->
  (forall y, In y rest -> li w y = false) ->
  exists q1 q2, pq_assign_top q w = Ok q1 /\ pq_replaceTop_ref li q1 0 = Ok q2 /\ pq_replaceTop li q w = Ok q2
   /\ contents q2 = w :: rest /\ pq_top q2 = Ok w.
Proof.
  intros T le li dflt n ops q x w rest Hp Hc Hb Hn Hl Hq Hx Hy. destruct (Hp) as (Ht & Htr).
  destruct (reached le li dflt n ops q Hp Hc Hb Hn Hl Hq) as (l & R & _).
  assert (R' := R). destruct R' as (L & S1 & _). unfold contents in *.
  assert (Hpos : 0 < pq_size q). { apply (f_equal (@length T)) in Hx. rewrite firstn_length in Hx. simpl in Hx. lia. }
  destruct (replace_own_kept le li dflt Ht Htr (cmp_le le li Hp Hc) (cmp_ge le li Hp Hc) q l w R Hpos) as (E1 & E2 & E3).
  { rewrite Hx. exact Hy. }
  eexists; eexists. split; [exact E1|]. split; [exact E2|]. split; [exact E3|]. cbn [pq pq_size]. rewrite (firstn_upd_0 le li Ht Htr (cmp_le le li Hp Hc) (cmp_ge le li Hp Hc)) by lia. rewrite Hx. split; [reflexivity|].
  unfold pq_top. cbn [pq]. destruct (pq q); [simpl in *; lia|reflexivity].
Qed.
Print Assumptions C91_update_top_partial.
Example C91_update_top_example :
  exists q, queue_after Nat.leb 0 1 [PPush 2; PPush 7; PPush 3] q /\ contents q = [7; 2; 3] /\ Nat.leb 5 2 = false /\ Nat.leb 5 3 = false.
Proof.
  let q := eval vm_compute in (exec_ops (pq_step Nat.leb 0) (pq_new 0 1) [PPush 2; PPush 7; PPush 3]) in
  match q with Ok ?x => exists x end. repeat split; vm_compute; reflexivity. Qed.

(** and whenever it does not stay there, it is lost, and another element is in the queue
    once more: for every queue a client can build. *)
Theorem C91_update_top_refuted :
  forall (T : Type) (le li : T -> T -> bool) (dflt : T) (initial_size : N) (ops : list (pqop T)) (q : pqueue T) (x w y : T) (rest : list T),
  total_preorder le -> comparator_for le li ->
  (existsb is_bottom_up ops = false \/ forall a b, li a b = le a b) ->
  (0 < initial_size)%N -> (N.of_nat (length ops) < 2 ^ 31)%N ->
  queue_after li dflt initial_size ops q -> contents q = x :: rest ->
  In y rest -> li w y = true ->
  exists q1 q2 d, pq_assign_top q w = Ok q1 /\ pq_replaceTop_ref li q1 0 = Ok q2
   /\ In d rest /\ Permutation (contents q2) (d :: rest).
Proof.
  intros T le li dflt n ops q x w y rest Hp Hc Hb Hn Hl Hq Hx Hy Hw. destruct (Hp) as (Ht & Htr).
  destruct (reached le li dflt n ops q Hp Hc Hb Hn Hl Hq) as (l & R & _). unfold contents in *.
  destruct (replace_own_lost le li dflt Ht Htr (cmp_le le li Hp Hc) (cmp_ge le li Hp Hc) q l w y R) as (q1 & q2 & d & E1 & E2 & (_ & _ & _ & _ & P) & Hd).
  - destruct Hc as [Hc|Hc]; intros a b c; rewrite !Hc; [apply Htr|]. intros A B. apply negb_true_iff in A. apply negb_true_iff.
    destruct (le c a) eqn:Eca; [|reflexivity]. rewrite <- A. symmetry. eapply Htr; eauto.
  - rewrite Hx. exact Hy.
  - exact Hw.
  - rewrite Hx in P, Hd. exists q1, q2, d. auto.
Qed.
Print Assumptions C91_update_top_refuted.
Example C91_update_top_lost :
  exists q q1 q2, queue_after Nat.leb 0 1 [PPush 2; PPush 7; PPush 3] q /\ contents q = [7; 2; 3]
   /\ pq_assign_top q 1 = Ok q1 /\ pq_replaceTop_ref Nat.leb q1 0 = Ok q2 /\ contents q2 = [3; 2; 3].
Proof.
  let q := eval vm_compute in (exec_ops (pq_step Nat.leb 0) (pq_new 0 1) [PPush 2; PPush 7; PPush 3]) in
  match q with Ok ?x => exists x; let r := eval vm_compute in (pq_assign_top x 1) in match r with Ok ?y => exists y;
     let r := eval vm_compute in (pq_replaceTop_ref Nat.leb y 0) in match r with Ok ?z => exists z end end end.
  repeat split; vm_compute; reflexivity. Qed.
