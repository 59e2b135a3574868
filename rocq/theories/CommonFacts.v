(** Lemmas about the vocabulary of Common.v. *)
From Coq Require Import List Arith NArith ZArith Lia Bool Permutation.
From Verif Require Import Common.
Import ListNotations.

Lemma length_upd {A} (l : list A) i a : length (upd l i a) = length l.
Proof. revert i; induction l as [|x l IH]; intros [|i]; simpl; auto. Qed.

Lemma nth_error_upd_eq {A} (l : list A) i a :
  i < length l -> nth_error (upd l i a) i = Some a.
Proof. revert i; induction l as [|x l IH]; intros [|i] H; simpl in *; try lia; auto.
  apply IH; lia. Qed.

Lemma nth_error_upd_neq {A} (l : list A) i j a :
  i <> j -> nth_error (upd l i a) j = nth_error l j.
Proof. revert i j; induction l as [|x l IH]; intros [|i] [|j] H; simpl; auto; try lia. Qed.

Lemma nth_error_upd {A} (l : list A) i j a :
  nth_error (upd l i a) j =
  if (i =? j) && (j <? length l) then Some a else nth_error l j.
Proof.
  destruct (Nat.eqb_spec i j) as [->|H]; simpl.
  - destruct (Nat.ltb_spec j (length l)).
    + now apply nth_error_upd_eq.
    + rewrite !(proj2 (nth_error_None _ _)); rewrite ?length_upd; auto.
  - now apply nth_error_upd_neq.
Qed.

Lemma upd_same {A} (l : list A) i a : nth_error l i = Some a -> upd l i a = l.
Proof. revert i; induction l as [|x l IH]; intros [|i] H; simpl in *; try congruence.
  f_equal; auto. Qed.

Lemma upd_app_mid {A} (l1 l2 : list A) x y : upd (l1 ++ x :: l2) (length l1) y = l1 ++ y :: l2.
Proof. induction l1; simpl; congruence. Qed.

Lemma get_Some {A} (l : list A) i a : nth_error l i = Some a -> get l i = Ok a.
Proof. unfold get; now intros ->. Qed.

Lemma get_lt {A} (l : list A) i : i < length l -> exists a, nth_error l i = Some a /\ get l i = Ok a.
Proof. intros H. unfold get. destruct (nth_error l i) eqn:E; eauto.
  apply nth_error_None in E; lia. Qed.

Lemma put_ok {A} (l : list A) i a : i < length l -> put l i a = Ok (upd l i a).
Proof. intros H; unfold put. now rewrite (proj2 (Nat.ltb_lt _ _) H). Qed.

Lemma nth_error_lt {A} (l : list A) i a : nth_error l i = Some a -> i < length l.
Proof. intros H; apply nth_error_Some; congruence. Qed.

Lemma Forall2_upd {A B} (P : A -> B -> Prop) l1 l2 i x y :
  Forall2 P l1 l2 -> P x y -> Forall2 P (upd l1 i x) (upd l2 i y).
Proof. intros H Hp; revert i; induction H; intros [|i]; simpl; constructor; auto. Qed.

Lemma Forall2_impl_in {A B} (P Q : A -> B -> Prop) l1 l2 :
  (forall x y, In x l1 -> In y l2 -> P x y -> Q x y) -> Forall2 P l1 l2 -> Forall2 Q l1 l2.
Proof. intros H F; induction F; constructor.
  - apply H; simpl; auto.
  - apply IHF; intros; apply H; simpl; auto. Qed.

Lemma Forall2_nth_l {A B} (P : A -> B -> Prop) l1 l2 i x :
  Forall2 P l1 l2 -> nth_error l1 i = Some x -> exists y, nth_error l2 i = Some y /\ P x y.
Proof. intros F; revert i; induction F; intros [|i] E; simpl in *; try discriminate.
  - inversion E; subst; eauto.
  - eauto. Qed.

Lemma Forall2_nth_r {A B} (P : A -> B -> Prop) l1 l2 i y :
  Forall2 P l1 l2 -> nth_error l2 i = Some y -> exists x, nth_error l1 i = Some x /\ P x y.
Proof. intros F; revert i; induction F; intros [|i] E; simpl in *; try discriminate.
  - inversion E; subst; eauto.
  - eauto. Qed.

Lemma Forall2_length' {A B} (P : A -> B -> Prop) l1 l2 : Forall2 P l1 l2 -> length l1 = length l2.
Proof. induction 1; simpl; auto. Qed.

Lemma Forall2_nth_intro {A B} (P : A -> B -> Prop) l1 l2 :
  length l1 = length l2 ->
  (forall i x y, nth_error l1 i = Some x -> nth_error l2 i = Some y -> P x y) ->
  Forall2 P l1 l2.
Proof. revert l2; induction l1 as [|x l1 IH]; intros [|y l2] L H; simpl in L; try discriminate; constructor.
  - apply (H 0); auto.
  - apply IH; [lia|]. intros i; apply (H (S i)). Qed.

Lemma Permutation_flat_map {A B} (f : A -> list B) l1 l2 :
  Permutation l1 l2 -> Permutation (flat_map f l1) (flat_map f l2).
Proof. induction 1; simpl; auto.
  - now apply Permutation_app_head.
  - rewrite !app_assoc. apply Permutation_app_tail, Permutation_app_comm.
  - etransitivity; eauto. Qed.

Lemma flat_map_ext_in {A B} (f g : A -> list B) l :
  (forall x, In x l -> f x = g x) -> flat_map f l = flat_map g l.
Proof. induction l; simpl; intros H; auto. rewrite H, IHl; auto. Qed.

Lemma concat_upd_perm {A} (css : list (list A)) h c c' :
  nth_error css h = Some c ->
  exists rest, Permutation (concat css) (c ++ rest)
            /\ Permutation (concat (upd css h c')) (c' ++ rest).
Proof.
  revert h; induction css as [|x css IH]; intros [|h] E; simpl in *; try discriminate.
  - inversion E; subst. exists (concat css); split; reflexivity.
  - destruct (IH _ E) as (r & H1 & H2). exists (x ++ r); split.
    + rewrite H1. rewrite !app_assoc. apply Permutation_app_tail, Permutation_app_comm.
    + rewrite H2. rewrite !app_assoc. apply Permutation_app_tail, Permutation_app_comm.
Qed.

Lemma NoDup_app_l {A} (l1 l2 : list A) : NoDup (l1 ++ l2) -> NoDup l1.
Proof. induction l1 as [|a l1 IH]; simpl; intros H; [constructor|].
  inversion H as [|? ? H1 H2]; subst. constructor; auto.
  intro; apply H1; apply in_or_app; auto. Qed.
Lemma NoDup_app_r {A} (l1 l2 : list A) : NoDup (l1 ++ l2) -> NoDup l2.
Proof. induction l1; simpl; intros H; auto. inversion H; auto. Qed.
Lemma NoDup_app_disj {A} (l1 l2 : list A) x : NoDup (l1 ++ l2) -> In x l1 -> In x l2 -> False.
Proof. induction l1 as [|a l1 IH]; simpl; [tauto|]. intros H Hx H2.
  inversion H as [|? ? H3 H4]; subst. destruct Hx as [->|Hx]; auto.
  apply H3, in_or_app; auto. Qed.

Lemma Forall2_eq_nth {A} (l1 l2 : list A) : length l1 = length l2 ->
  (forall i x y, nth_error l1 i = Some x -> nth_error l2 i = Some y -> x = y) -> l1 = l2.
Proof. revert l2; induction l1 as [|x l1 IH]; intros [|y l2] L H; simpl in L; try discriminate; auto.
  f_equal; [apply (H 0); auto|]. apply IH; [lia|]. intros i; apply (H (S i)). Qed.
