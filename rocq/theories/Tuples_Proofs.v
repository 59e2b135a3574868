From Coq Require Import List Bool ZArith Lia.
From Verif Require Import Common HashFns_Model Tuples_Spec Tuples_Model.
Import ListNotations.
Local Open Scope nat_scope.

Section proofs.
Context {A : Type}.
Variables eqb ltb : A -> A -> bool.
Variable hash : A -> Z.
Hypothesis Ord : total_order eqb ltb.

Lemma eqb_eq : forall x y, eqb x y = true <-> x = y.
Proof. apply Ord. Qed.
Lemma ltb_irr : forall x, ltb x x = false.
Proof. apply Ord. Qed.
Lemma ltb_trans : forall x y z, ltb x y = true -> ltb y z = true -> ltb x z = true.
Proof. apply Ord. Qed.
Lemma ltb_total : forall x y, ltb x y = true \/ x = y \/ ltb y x = true.
Proof. apply Ord. Qed.

Lemma skipn_bit : forall (m : list bool) k b r, skipn k m = b :: r -> bit m k = b /\ skipn (k + 1) m = r.
Proof.
  intros m k b r E. split.
  - unfold bit. rewrite <- (firstn_skipn k m), E. assert (L : length (firstn k m) = k).
    { rewrite firstn_length. assert (k < length m); [|lia]. destruct (Nat.lt_ge_cases k (length m)) as [|G]; [assumption|].
      rewrite skipn_all2 in E by assumption. discriminate. }
    rewrite app_nth2 by lia. rewrite L, Nat.sub_diag. reflexivity.
  - replace (k + 1) with (1 + k) by lia. revert k E. induction m as [|x m IH]; intros [|k] E; try discriminate.
    + injection E as <- <-. reflexivity.
    + cbn in *. now apply IH.
Qed.

Lemma bits_equal_eq : forall a b, bits_equal a b = true <-> a = b.
Proof.
  induction a as [|x a IH]; intros [|y b]; cbn; split; intros H; try discriminate; try reflexivity.
  - apply andb_true_iff in H as [H1 H2]. apply Bool.eqb_prop in H1. apply IH in H2. congruence.
  - injection H as -> ->. rewrite Bool.eqb_reflx. now apply IH.
Qed.

(** Equality. *)
Lemma any_equal_pattern : forall l r m k s, skipn k m = s -> length l = length s -> length r = length s ->
  bitset_any_equal eqb l r m k = true <-> pattern l s = pattern r s.
Proof.
  induction l as [|x l IH]; intros [|y r] m k s Hs L1 L2; destruct s as [|b s]; try discriminate; cbn [bitset_any_equal pattern].
  - tauto.
  - apply skipn_bit in Hs as [-> Hs]. injection L1 as L1. injection L2 as L2. specialize (IH r m (k + 1) s Hs L1 L2).
    destruct b; cbn [orb].
    + rewrite IH. split; congruence.
    + destruct (eqb x y) eqn:E.
      * apply eqb_eq in E as ->. rewrite IH. split; congruence.
      * split; [discriminate|]. intros J. injection J as -> _. assert (eqb y y = true) by now apply eqb_eq. congruence.
Qed.
Lemma pattern_mask : forall (l : list A) m l' m', length l = length m -> length l' = length m' -> pattern l m = pattern l' m' -> m = m'.
Proof.
  induction l as [|x l IH]; intros [|b m] [|x' l'] [|b' m'] L L' E; try discriminate; [reflexivity|].
  cbn in E. injection E as E1 E2. injection L as L. injection L' as L'. f_equal; [destruct b, b'; congruence|eapply IH; eauto].
Qed.

(** Order. *)
Lemma any_less_dict : forall l r m m' k s s', skipn k m = s -> skipn k m' = s' ->
  length l = length s -> length r = length s' -> length l = length r ->
  bitset_any_strict_less_than ltb l r m m' k = true <-> dict_lt ltb (pattern l s) (pattern r s').
Proof.
  induction l as [|x l IH]; intros [|y r] m m' k s s' Hs Hs' L1 L2 L3; destruct s as [|b s]; destruct s' as [|b' s']; try discriminate; cbn [bitset_any_strict_less_than pattern].
  - split; [discriminate|]. intros H. inversion H.
  - apply skipn_bit in Hs as [-> Hs]. apply skipn_bit in Hs' as [-> Hs']. injection L1 as L1. injection L2 as L2. injection L3 as L3.
    specialize (IH r m m' (k + 1) s s' Hs Hs' L1 L2 L3). cbv zeta. destruct b, b'; cbn [negb andb].
    + rewrite IH. split; [intros H; now apply dict_later|]. intros H. inversion H; subst; [contradiction|assumption].
    + split; [discriminate|]. intros H. inversion H; subst. contradiction.
    + split; [|reflexivity]. intros _. apply dict_here. exact I.
    + destruct (ltb x y) eqn:E; [split; [intros _; now apply dict_here|reflexivity]|].
      destruct (ltb y x) eqn:E2.
      * split; [discriminate|]. intros H. inversion H; subst; [cbn in *; congruence|]. now rewrite ltb_irr in E2.
      * assert (x = y) as -> by (destruct (ltb_total x y) as [H|[H|H]]; congruence). rewrite IH.
        split; [intros H; now apply dict_later|]. intros H. inversion H; subst; [cbn in *; congruence|assumption].
Qed.

(** dict_lt is a strict total order on lists of the same length. *)
Lemma coord_irr : forall x, ~ coord_lt ltb x x.
Proof. intros [x|] H; cbn in H; [rewrite ltb_irr in H; discriminate|contradiction]. Qed.
Lemma coord_trans : forall x y z, coord_lt ltb x y -> coord_lt ltb y z -> coord_lt ltb x z.
Proof. intros [x|] [y|] [z|] H1 H2; cbn in *; try contradiction; try exact I; eapply ltb_trans; eauto. Qed.
Lemma coord_total : forall x y, coord_lt ltb x y \/ x = y \/ coord_lt ltb y x.
Proof. intros [x|] [y|]; cbn; auto. destruct (ltb_total x y) as [H|[->|H]]; auto. Qed.
Lemma dict_irr : forall l, ~ dict_lt ltb l l.
Proof. induction l as [|x l IH]; intros H; inversion H; subst; [eapply coord_irr; eauto|auto]. Qed.
Lemma dict_trans : forall a b c, dict_lt ltb a b -> dict_lt ltb b c -> dict_lt ltb a c.
Proof.
  intros a b c H. revert c. induction H as [x y xs ys H|x xs ys H IH]; intros c H2; inversion H2; subst.
  - apply dict_here. eapply coord_trans; eauto.
  - now apply dict_here.
  - now apply dict_here.
  - apply dict_later. auto.
Qed.
Lemma dict_total : forall a b, length a = length b -> dict_lt ltb a b \/ a = b \/ dict_lt ltb b a.
Proof.
  induction a as [|x a IH]; intros [|y b] L; try discriminate; [auto|]. injection L as L.
  destruct (coord_total x y) as [H|[->|H]]; [left; now apply dict_here| |right; right; now apply dict_here].
  destruct (IH b L) as [H|[->|H]]; [left; now apply dict_later|auto|right; right; now apply dict_later].
Qed.

(** Hash. *)
Definition coord_hash (x : option A) : Z := match x with Some v => hash v | None => any_hash end.
Fixpoint pattern_hash (p : list (option A)) : Z :=
  match p with
  | [] => 0%Z
  | [x] => coord_hash x
  | x :: y :: r => BobJenkinsHashMix3 (coord_hash x) (coord_hash y) (pattern_hash r)
  end.
Lemma any_hash_pattern : forall n l m k s, length l <= n -> skipn k m = s -> length l = length s ->
  bitset_any_hash hash l m k = pattern_hash (pattern l s).
Proof.
  induction n as [|n IH]; intros l m k s Ln Hs L.
  - destruct l; [|cbn in Ln; lia]. destruct s; [|discriminate]. reflexivity.
  - destruct l as [|x l]; destruct s as [|b s]; try discriminate; [reflexivity|].
    apply skipn_bit in Hs as [B Hs]. destruct l as [|y l]; destruct s as [|b' s]; try discriminate.
    + cbn. rewrite B. destruct b; reflexivity.
    + apply skipn_bit in Hs as [B' Hs]. cbn [bitset_any_hash pattern pattern_hash]. cbv zeta. rewrite B, B'.
      replace (k + 1 + 1) with (k + 2) in Hs by lia. rewrite (IH l m (k + 2) s); [|cbn in Ln; lia|exact Hs|cbn in L; lia].
      destruct b, b'; reflexivity.
Qed.
(** Tuples of AnyPair. *)
Definition pair_pattern (t : list (any_pair A)) : list (option A) := map (fun p => if pany p then None else Some (pval p)) t.
Lemma apt_equal_pattern : forall l r, length l = length r -> apt_equal eqb l r = true <-> pair_pattern l = pair_pattern r.
Proof.
  induction l as [|[a x] l IH]; intros [|[b y] r] L; try discriminate; [cbn; tauto|]. injection L as L. specialize (IH r L).
  cbn [apt_equal pair_pattern map]. unfold ap_equal. cbn [pany pval]. rewrite andb_true_iff, IH.
  destruct a, b; cbn [Bool.eqb negb].
  - split; [intros [_ H]; unfold pair_pattern in *; congruence|intros H; injection H; auto].
  - split; [intros [H _]; discriminate|discriminate].
  - split; [intros [H _]; discriminate|discriminate].
  - rewrite eqb_eq. split; [intros [-> H]; unfold pair_pattern in *; congruence|intros H; injection H; auto].
Qed.
Lemma apt_less_dict : forall l r, length l = length r ->
  exists b, apt_less ltb l r = Ok b /\ (b = true <-> dict_lt ltb (pair_pattern l) (pair_pattern r)).
Proof.
  induction l as [|[a x] l IH]; intros [|[b y] r] L; try discriminate.
  - exists false. split; [reflexivity|]. split; [discriminate|]. intros H. inversion H.
  - injection L as L. destruct (IH r L) as (c & E & Hc). cbn [apt_less pair_pattern map]. unfold ap_less. cbn [pany pval].
    destruct a, b; cbn [negb andb bind].
    + exists c. split; [exact E|]. rewrite Hc. split; [intros H; now apply dict_later|]. intros H. inversion H; subst; [contradiction|assumption].
    + exists false. split; [reflexivity|]. split; [discriminate|]. intros H. inversion H; subst. contradiction.
    + exists true. split; [reflexivity|]. split; [|reflexivity]. intros _. apply dict_here. exact I.
    + destruct (ltb x y) eqn:F; [exists true; split; [reflexivity|]; split; [intros _; now apply dict_here|reflexivity]|].
      destruct (ltb y x) eqn:F2.
      * exists false. split; [reflexivity|]. split; [discriminate|]. intros H. inversion H; subst; [cbn in *; congruence|]. now rewrite ltb_irr in F2.
      * assert (x = y) as -> by (destruct (ltb_total x y) as [H|[H|H]]; congruence). exists c. split; [exact E|]. rewrite Hc.
        split; [intros H; now apply dict_later|]. intros H. inversion H; subst; [cbn in *; congruence|assumption].
Qed.
Lemma pair_hash_pattern : forall n t, length t <= n -> tuple_hash (ap_hash hash) t = pattern_hash (pair_pattern t).
Proof.
  induction n as [|n IH]; intros [|[a x] [|[b y] t]] L; cbn in L; try lia; try reflexivity.
  - cbn. destruct a; reflexivity.
  - cbn [tuple_hash pair_pattern map pattern_hash]. rewrite IH by lia. unfold ap_hash. cbn. destruct a, b; reflexivity.
Qed.
Lemma pattern_length : forall (l : list A) m, length l = length m -> length (pattern l m) = length m.
Proof. induction l as [|x l IH]; intros [|b m] L; try discriminate; [reflexivity|]. cbn. rewrite IH; auto. Qed.
End proofs.
