(** Property theorems for HashTable (C02-C06). *)
From Coq Require Import List Arith NArith Bool Permutation.
From Verif Require Import Common HashTable_Model HashTable_Spec HashTable_Refine HashTable_Facts.
Import ListNotations.

(** C02. Every client program on a fresh table has an observable history allowed
    by the multiset specification: no UB, no other abort, verifyFreeListSize
    never fires, size() is exact, lookup finds every element. *)
Theorem C02_hashtable_history :
  forall (D : Type) (hashfn : D -> N) (equal : D -> D -> bool) (default : D) (num den : nat)
         (t : ht D) (ops : list (top D)),
  (forall a b, equal a b = true -> hashfn a = hashfn b) ->
  ht_new num den = Ok t ->
  thist equal num den (mk_ts [] 0) ops (ht_run hashfn equal default t ops).
Proof. intros; eapply run_refines; eauto using new_rel. Qed.
Print Assumptions C02_hashtable_history.

(** C02 (structure). In every reachable table the slots are partitioned between
    the chains and the free list, each slot on exactly one of them, the free
    list has the recorded length and size() counts the chained slots. *)
Theorem C02_hashtable_slots :
  forall (D : Type) (hashfn : D -> N) (equal : D -> D -> bool) (default : D) (t : ht D),
  (forall a b, equal a b = true -> hashfn a = hashfn b) ->
  reachable hashfn equal default t ->
  exists css fl,
    length css = length (entry_points t)
    /\ (forall h e c, nth_error (entry_points t) h = Some e -> nth_error css h = Some c ->
          chain_walk (fuel_of t) (chains t) e = Ok c
          /\ forall i d n, In i c -> nth_error (chains t) i = Some (d, n) ->
               bucket_of hashfn (length (entry_points t)) d = h)
    /\ chain_walk (fuel_of t) (chains t) (free_list t) = Ok fl
    /\ Permutation (concat css ++ fl) (seq 0 (length (chains t)))
    /\ length fl = free_list_size t
    /\ ht_size t = length (concat css).
Proof. intros; eapply reachable_partition; eauto. Qed.
Print Assumptions C02_hashtable_slots.

(** C03. Iteration visits each slot that lies on a chain exactly once. *)
Theorem C03_iteration_exactly_once :
  forall (D : Type) (hashfn : D -> N) (equal : D -> D -> bool) (default : D) (t : ht D),
  (forall a b, equal a b = true -> hashfn a = hashfn b) ->
  reachable hashfn equal default t ->
  exists css, (forall h e c, nth_error (entry_points t) h = Some e -> nth_error css h = Some c ->
          chain_walk (fuel_of t) (chains t) e = Ok c)
    /\ length css = length (entry_points t)
    /\ NoDup (concat css)
    /\ exists l, ht_iterate t = Ok l /\ length l = ht_size t
       /\ Forall2 (fun i d => exists n, nth_error (chains t) i = Some (d, n)) (concat css) l.
Proof. intros; eapply reachable_iterate; eauto. Qed.
Print Assumptions C03_iteration_exactly_once.

(** C04. Erasing through the iterator at any position removes exactly the
    element there, and an iterator advanced before the erase continues with the
    next element. *)
Theorem C04_erase_at_position :
  forall (D : Type) (hashfn : D -> N) (equal : D -> D -> bool) (default : D) (t : ht D) l1 d l2,
  (forall a b, equal a b = true -> hashfn a = hashfn b) ->
  reachable hashfn equal default t ->
  ht_iterate t = Ok (l1 ++ d :: l2) ->
  exists it t', it_advance t (length l1) (ht_begin t 0) = Ok it /\ it_deref t it = Ok d
    /\ ht_erase default t it = Ok t' /\ ht_iterate t' = Ok (l1 ++ l2)
    /\ ht_size t = S (ht_size t')
    /\ (l2 <> [] -> exists it', it_increment t it = Ok it' /\ Some (it_deref t' it') = option_map Ok (hd_error l2)).
Proof. intros; eapply reachable_erase; eauto. Qed.
Print Assumptions C04_erase_at_position.

(** C04 (walk). The erase-while-iterating loop visits the elements once each and
    leaves exactly those not chosen: instance of C02 for [TEraseIf]. *)
Theorem C04_erase_if_walk :
  forall (D : Type) (hashfn : D -> N) (equal : D -> D -> bool) (default : D) (t : ht D) p,
  (forall a b, equal a b = true -> hashfn a = hashfn b) ->
  reachable hashfn equal default t ->
  exists visited t' l', ht_erase_if default p t = Ok (visited, t')
    /\ ht_iterate t = Ok visited
    /\ ht_iterate t' = Ok l' /\ Permutation l' (filter (fun d => negb (p d)) visited).
Proof. intros; eapply reachable_erase_if; eauto. Qed.
Print Assumptions C04_erase_if_walk.

(** C05 is false of the code: addOrReplace on an equal element keeps the old one. *)
Theorem C05_addOrReplace_refuted :
  exists (hashfn : nat * nat -> N) (equal : nat * nat -> nat * nat -> bool) (t : ht (nat * nat)) (v : nat * nat),
  (forall a b, equal a b = true -> hashfn a = hashfn b)
  /\ reachable hashfn equal (0, 0) t
  /\ exists t' i, ht_addOrReplace hashfn equal t v = Ok (t', i, true)
     /\ exists j, ht_lookup hashfn equal t' v = Ok (Some j) /\ deref t' j <> Ok v.
Proof. exact addOrReplace_refuted. Qed.
Print Assumptions C05_addOrReplace_refuted.

(** C05, the part that holds: when no equal element is present, a lookup after
    addOrReplace(v) returns v. *)
Theorem C05_addOrReplace_partial :
  forall (D : Type) (hashfn : D -> N) (equal : D -> D -> bool) (default : D) (t t' : ht D) v i,
  (forall a b, equal a b = true -> hashfn a = hashfn b) ->
  equal v v = true ->
  reachable hashfn equal default t ->
  ht_addOrReplace hashfn equal t v = Ok (t', i, false) ->
  exists j, ht_lookup hashfn equal t' v = Ok (Some j) /\ deref t' j = Ok v.
Proof. intros; eapply addOrReplace_new; eauto. Qed.
Print Assumptions C05_addOrReplace_partial.

(** C06. randomlookup: NULL exactly on the empty table, otherwise a stored
    element for every pair of draws; every stored element is drawn by some pair. *)
Theorem C06_randomlookup :
  forall (D : Type) (hashfn : D -> N) (equal : D -> D -> bool) (default : D) (t : ht D),
  (forall a b, equal a b = true -> hashfn a = hashfn b) ->
  reachable hashfn equal default t ->
  exists l, ht_iterate t = Ok l
   /\ (forall a b, match l with
                   | [] => ht_randomlookup t a b = Ok None
                   | _ => exists i d n, ht_randomlookup t a b = Ok (Some i) /\ nth_error (chains t) i = Some (d, n) /\ In d l
                   end)
   /\ (forall d, In d l -> exists a b i n, (b < N.of_nat (length l))%N /\ (a < N.of_nat (length (entry_points t)))%N
         /\ ht_randomlookup t a b = Ok (Some i) /\ nth_error (chains t) i = Some (d, n)).
Proof. intros; eapply reachable_random; eauto. Qed.
Print Assumptions C06_randomlookup.

(** *** The hypotheses are met by a concrete table: 14 insertions with a hash
    that collides a lot (two automatic growths), removals and slot reuse. *)
Definition ex_hash (n : nat) : N := N.of_nat (n mod 3).
Definition ex_ops : list (top nat) :=
  map TAdd (seq 1 14) ++ [TRemove 3 true; TRemove 8 true; TFindErase 14; TAdd 40].
Definition ex_table : res (ht nat) :=
  let! t := ht_new 2 1 in ht_exec ex_hash Nat.eqb 0 t ex_ops.

Example ex_consistent : forall a b, Nat.eqb a b = true -> ex_hash a = ex_hash b.
Proof. intros a b H; apply Nat.eqb_eq in H; now subst. Qed.

Example ex_reachable : exists t, ex_table = Ok t /\ reachable ex_hash Nat.eqb 0 t
   /\ ht_size t = 12 /\ free_list_size t = 2 /\ length (entry_points t) = 23
   /\ exists l1 d l2, ht_iterate t = Ok (l1 ++ d :: l2) /\ l1 <> [] /\ l2 <> [].
Proof.
  destruct ex_table as [t| | |] eqn:E; try (vm_compute in E; discriminate).
  exists t. split; auto. split.
  - exists 2, 1, (mk_ht None 0 [] [] 2 1), ex_ops. split; [reflexivity|]. exact E.
  - vm_compute in E. inversion E; subst; clear E. split; [reflexivity|]. split; [reflexivity|]. split; [reflexivity|].
    eexists [12], 9, _. split; [vm_compute; reflexivity|]. split; discriminate.
Qed.
