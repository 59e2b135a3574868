(** List lemmas missing from the standard library. *)
From Coq Require Import List Arith Lia.
Import ListNotations.

Lemma nth_error_ext {A} (l1 l2 : list A) : (forall i, nth_error l1 i = nth_error l2 i) -> l1 = l2.
Proof. revert l2; induction l1 as [|x l1 IH]; intros [|y l2] H; auto; try (specialize (H 0); discriminate).
  assert (H0 := H 0). injection H0 as ->. f_equal. apply IH. intros i. apply (H (S i)). Qed.

Lemma nth_error_skipn {A} (l : list A) k i : nth_error (skipn k l) i = nth_error l (k + i).
Proof. revert k; induction l as [|x l IH]; intros [|k]; simpl; auto. now destruct i. Qed.

Lemma nth_error_firstn_lt {A} (l : list A) k i : i < k -> nth_error (firstn k l) i = nth_error l i.
Proof. revert k i; induction l as [|x l IH]; intros [|k] [|i] H; simpl; auto; try lia. apply IH; lia. Qed.

Lemma skipn_skipn {A} (l : list A) a b : skipn a (skipn b l) = skipn (a + b) l.
Proof. revert b; induction l as [|x l IH]; intros b. { now rewrite !skipn_nil. }
  destruct b as [|b]; [now rewrite Nat.add_0_r|]. rewrite Nat.add_succ_r. simpl. apply IH. Qed.
