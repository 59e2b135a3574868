(** Consequences of the deque refinement, in the form the property file states. *)
From Coq Require Import List Arith NArith ZArith Lia Bool.
From Verif Require Import Common CommonFacts Deque_Spec Deque_Model Deque_Proofs.
Import ListNotations.

(** [d] is the deque and [l] the plain list after the legal history [ops]. *)
Definition deque_after {T} (n : nat) (ops : list (dop T)) (d : deque T) (l : list T) : Prop :=
  exists d0 cap, deque_new n = Ok d0 /\ exec_ops d_step d0 ops = Ok d
    /\ exec_ops dspec (mk_ds [] (n - 1)) ops = Ok (mk_ds l cap).

(** begin() with ++ applied [i] times. *)
Definition it_at {T} (d : deque T) (i : nat) : Z := Nat.iter i (it_inc d) (d_begin d).

Section F.
Context {T : Type}.
Lemma after_rep n (ops : list (dop T)) d l : deque_after n ops d l -> Rep d l.
Proof. intros (d0 & cap & Hn & E & Es). destruct (exec_rel ops d0 _ _ (new_rel n d0 Hn) Es) as (d' & E' & R & _).
  rewrite E in E'. inversion E'; subst. exact R. Qed.
Lemma it_at_pos (d : deque T) l i : Rep d l -> it_at d i = ipos d i.
Proof. intros R. rewrite <- (advance_pos d l i R). unfold it_at. induction i as [|i IH]; simpl; [reflexivity|]. now rewrite IH. Qed.

Lemma iterators n (ops : list (dop T)) d l : deque_after n ops d l ->
  it_at d (length l) = d_end d
  /\ (forall i, i < length l -> it_deref d (it_at d i) = get l i)
  /\ (forall i, i < length l -> it_dec d (it_at d (S i)) = it_at d i)
  /\ forall i j, i <= length l -> j <= length l ->
     it_diff d (it_at d i) (it_at d j) = (Z.of_nat i - Z.of_nat j)%Z
     /\ it_eq (it_at d i) (it_at d j) = (i =? j)
     /\ it_lt d (it_at d i) (it_at d j) = (i <? j)
     /\ it_le d (it_at d i) (it_at d j) = (i <=? j)
     /\ it_minus d (it_at d i) (Z.of_nat i - Z.of_nat j) = it_at d j
     /\ ((i <= j \/ (0 <= it_at d i + (Z.of_nat j - Z.of_nat i))%Z \/ ((2 ^ 64) mod Z.of_nat (S (d_capacity d)) = 0)%Z) ->
         it_plus d (it_at d i) (Z.of_nat j - Z.of_nat i) = it_at d j).
Proof.
  intros HA. assert (R := after_rep _ _ _ _ HA).
  assert (Eq : S (d_capacity d) = q_size d). { unfold d_capacity. destruct R as (_ & ? & _). lia. }
  split. { rewrite (it_at_pos d l _ R). symmetry. now apply end_pos. }
  split. { intros i Hi. rewrite (it_at_pos d l _ R). unfold get. destruct (nth_error l i) eqn:E; [|apply nth_error_None in E; lia]. eapply deref_pos; eauto. }
  split. { intros i Hi. rewrite !(it_at_pos d l _ R). eapply dec_pos; eauto. }
  intros i j Hi Hj. rewrite !(it_at_pos d l _ R). unfold it_diff, it_eq, it_lt, it_le. rewrite !(logical_pos d l _ R) by lia.
  split; auto. split. { destruct (Nat.eqb_spec i j) as [->|Nij]; [apply Z.eqb_refl|]. apply Z.eqb_neq. intros E. apply Nij. eapply ipos_inj; eauto. }
  split. { destruct (Nat.ltb_spec i j); [apply Z.ltb_lt|apply Z.ltb_ge]; lia. }
  split. { destruct (Nat.leb_spec i j); [apply Z.leb_le|apply Z.leb_gt]; lia. }
  split. { eapply minus_pos; eauto. }
  intros Hc. eapply plus_pos; eauto. rewrite Eq in Hc. unfold w64. destruct Hc as [Hc|Hc]; auto. left.
  assert (X := ipos_range d l i R). lia.
Qed.

Lemma push_self n (ops : list (dop T)) d l i v : deque_after n ops d l -> length l < d_capacity d ->
  nth_error l i = Some v ->
  exists d', d_push_back d (Cell ((q_front d + i) mod q_size d)) = Ok d'
    /\ d_push_back d (Outside v) = Ok d'.
Proof.
  intros HA Hc Hv. assert (R := after_rep _ _ _ _ HA). assert (Hr : read (cells d) ((q_front d + i) mod q_size d) = Ok v) by (apply (at_rep d l i v R Hv)).
  unfold d_capacity in Hc.
  destruct (push_room_rep d l (Outside v) v R ltac:(lia) eq_refl) as (d' & E & _).
  exists d'. split; auto. rewrite <- E. unfold d_push_back.
  destruct (negb _) eqn:En; [cbn [read_ref]; now rewrite Hr|]. exfalso.
  assert (H := R). destruct H as (L & S1 & Sz & F & Le & B & C). apply negb_false_iff, Nat.eqb_eq in En.
  rewrite B in En. rewrite (wrap (q_front d + length l)) in En by lia. revert En. ifs; rewrite wrap by lia; ifs; apply Nat.ltb_lt in E0 || apply Nat.ltb_ge in E0; try (apply Nat.ltb_lt in E1 || apply Nat.ltb_ge in E1); lia.
Qed.
End F.
