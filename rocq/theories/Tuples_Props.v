(** Property C31 of tuples with "any" positions. *)
From Coq Require Import List Bool ZArith Lia.
From Verif Require Import Common HashFns_Model Tuples_Spec Tuples_Model Tuples_Proofs.
Import ListNotations.
Local Open Scope nat_scope.

(** A tuple of [n] coordinates with a mask of [n] bits. *)
Definition arity {A} (n : nat) (t : bitset_any_tuple A) : Prop := length (data t) = n /\ length (any t) = n.
Definition stands_for {A} (t : bitset_any_tuple A) : list (option A) := pattern (data t) (any t).

Section props.
Context {A : Type}.
Variables eqb ltb : A -> A -> bool.
Variable hash : A -> Z.

(** == says that the tuples stand for the same coordinates (what is stored under
    an "any" does not matter), and so is an equivalence. *)
Theorem C31_equal : total_order eqb ltb -> forall n t u, arity n t -> arity n u ->
  bat_equal eqb t u = true <-> stands_for t = stands_for u.
Proof.
  intros O n [d m] [d' m'] [L1 L2] [L3 L4]. unfold bat_equal, stands_for. cbn [data any] in *. split.
  - destruct (bits_equal m m') eqn:E; [|discriminate]. apply bits_equal_eq in E as <-. cbn [negb]. intros H.
    apply (any_equal_pattern eqb ltb O d d' m 0 m); [reflexivity|congruence|congruence|exact H].
  - intros H. assert (m = m') as <- by (eapply pattern_mask; [| |exact H]; congruence).
    replace (bits_equal m m) with true by (symmetry; now apply bits_equal_eq). cbn [negb].
    apply (any_equal_pattern eqb ltb O d d' m 0 m); [reflexivity|congruence|congruence|exact H].
Qed.
(** Equal tuples have equal hashes. *)
Theorem C31_hash : total_order eqb ltb -> forall n t u, arity n t -> arity n u ->
  bat_equal eqb t u = true -> bat_hash hash t = bat_hash hash u.
Proof.
  intros O n t u Ht Hu E. apply (C31_equal O n t u Ht Hu) in E. unfold stands_for in E. destruct Ht as [L1 L2], Hu as [L3 L4].
  unfold bat_hash. rewrite (any_hash_pattern hash n (data t) (any t) 0 (any t)), (any_hash_pattern hash n (data u) (any u) 0 (any u)) by (reflexivity || lia).
  now rewrite E.
Qed.
(** < is the dictionary order of the coordinates, any last. *)
Theorem C31_less : total_order eqb ltb -> forall n t u, arity n t -> arity n u ->
  bat_less ltb t u = true <-> dict_lt ltb (stands_for t) (stands_for u).
Proof.
  intros O n t u [L1 L2] [L3 L4]. unfold bat_less, stands_for. eapply (any_less_dict eqb ltb O); try reflexivity; congruence.
Qed.
(** So < is a strict order, and exactly one of t < u, t == u, u < t holds. *)
Theorem C31_strict_total_order : total_order eqb ltb -> forall n,
  (forall t, arity n t -> bat_less ltb t t = false)
  /\ (forall t u v, arity n t -> arity n u -> arity n v -> bat_less ltb t u = true -> bat_less ltb u v = true -> bat_less ltb t v = true)
  /\ (forall t u, arity n t -> arity n u ->
        (bat_less ltb t u = true /\ bat_equal eqb t u = false /\ bat_less ltb u t = false)
        \/ (bat_less ltb t u = false /\ bat_equal eqb t u = true /\ bat_less ltb u t = false)
        \/ (bat_less ltb t u = false /\ bat_equal eqb t u = false /\ bat_less ltb u t = true)).
Proof.
  intros O n. assert (B : forall b P, (b = true <-> P) -> ~ P -> b = false) by (intros [] P H NP; [exfalso; apply NP, H; reflexivity|reflexivity]).
  split; [|split].
  - intros t Ht. eapply B; [apply (C31_less O n); assumption|]. apply (dict_irr eqb ltb O).
  - intros t u v Ht Hu Hv. rewrite !(C31_less O n) by assumption. apply (dict_trans eqb ltb O).
  - intros t u Ht Hu. pose proof (C31_less O n t u Ht Hu) as E1. pose proof (C31_less O n u t Hu Ht) as E2. pose proof (C31_equal O n t u Ht Hu) as E3.
    destruct (dict_total eqb ltb O (stands_for t) (stands_for u)) as [H|[H|H]].
    + unfold stands_for. destruct Ht, Hu. rewrite !pattern_length; congruence.
    + left. split; [now apply E1|]. split; [apply (B _ _ E3); intros Q; rewrite Q in H; now apply (dict_irr eqb ltb O) in H|].
      apply (B _ _ E2). intros Q. exact (dict_irr eqb ltb O _ (dict_trans eqb ltb O _ _ _ H Q)).
    + right. left. split; [|split; [now apply E3|]].
      * apply (B _ _ E1). rewrite H. apply (dict_irr eqb ltb O).
      * apply (B _ _ E2). rewrite H. apply (dict_irr eqb ltb O).
    + right. right. split; [|split; [|now apply E2]].
      * apply (B _ _ E1). intros Q. exact (dict_irr eqb ltb O _ (dict_trans eqb ltb O _ _ _ H Q)).
      * apply (B _ _ E3). intros Q. rewrite Q in H. now apply (dict_irr eqb ltb O) in H.
Qed.
(** Tuples of AnyPair behave the same: comparison never fails, and equality,
    order and hash agree with those of the bitset representation. *)
Theorem C31_any_pairs_agree : total_order eqb ltb -> forall n t u (t' u' : list (any_pair A)), arity n t -> arity n u ->
  map (fun p => if pany p then None else Some (pval p)) t' = stands_for t ->
  map (fun p => if pany p then None else Some (pval p)) u' = stands_for u ->
  apt_equal eqb t' u' = bat_equal eqb t u /\ apt_less ltb t' u' = Ok (bat_less ltb t u)
  /\ tuple_hash (ap_hash hash) t' = bat_hash hash t.
Proof.
  intros O n t u t' u' Ht Hu Et Eu. assert (B : forall b b', (b = true <-> b' = true) -> b = b') by (intros b b' H; destruct (Bool.bool_dec b b') as [|N]; [assumption|]; destruct b, b'; destruct H; congruence || (exfalso; intuition congruence)).
  fold (pair_pattern t') in Et. fold (pair_pattern u') in Eu.
  assert (L : length t' = length u').
  { apply (f_equal (@length _)) in Et. apply (f_equal (@length _)) in Eu. unfold pair_pattern, stands_for in *. rewrite map_length in *.
    destruct Ht, Hu. rewrite pattern_length in Et, Eu by congruence. congruence. }
  split; [|split].
  - apply B. rewrite (apt_equal_pattern eqb ltb O) by exact L. rewrite (C31_equal O n) by assumption. now rewrite Et, Eu.
  - destruct (apt_less_dict eqb ltb O t' u' L) as (b & -> & H). f_equal. apply B. rewrite H, (C31_less O n) by assumption. now rewrite Et, Eu.
  - rewrite (pair_hash_pattern hash (length t') t') by lia. rewrite Et. unfold bat_hash, stands_for. destruct Ht as [L1 L2].
    symmetry. apply (any_hash_pattern hash n); [lia|reflexivity|congruence].
Qed.
(** assign() gives the tuple with no "any", hashed like the plain tuple. *)
Theorem C31_assign : forall from, map (fun p => if pany p then None else Some (pval p)) (assign from) = map Some from
  /\ tuple_hash (ap_hash hash) (assign from) = tuple_hash hash from.
Proof.
  intros from. unfold assign. split; [rewrite map_map; reflexivity|].
  assert (G : forall n l, length l <= n -> tuple_hash (ap_hash hash) (map (fun x => {| pany := false; pval := x |}) l) = tuple_hash hash l).
  { induction n as [|n IH]; intros [|x [|y l]] L; cbn in L; try lia; try reflexivity. cbn [map tuple_hash]. now rewrite IH by lia. }
  now apply (G (length from)).
Qed.
End props.

Example C31_order_exists : total_order Z.eqb Z.ltb.
Proof. split; [apply Z.eqb_eq|]. repeat split; intros; rewrite ?Z.ltb_lt, ?Z.ltb_ge in *; lia. Qed.
Example C31_nonvacuous :
  let t := {| data := [1; 2; 3]%Z; any := [false; true; false] |} in
  let u := {| data := [1; 9; 3]%Z; any := [false; true; false] |} in
  let v := {| data := [1; 9; 3]%Z; any := [false; false; false] |} in
  bat_equal Z.eqb t u = true /\ bat_less Z.ltb v t = true /\ bat_equal Z.eqb t v = false /\ arity 3 t.
Proof. repeat split. Qed.
Print Assumptions C31_equal.
Print Assumptions C31_hash.
Print Assumptions C31_less.
Print Assumptions C31_strict_total_order.
Print Assumptions C31_any_pairs_agree.
Print Assumptions C31_assign.
