(** C54: Double's tolerance comparisons. *)
From Flocq Require BinarySingleNaN.
From Coq Require Import ZArith QArith Qabs Qminmax Lqa Bool Lia.
From Verif Require Import Common Double64 Arith Stats_Proofs Double_Model Double_Exact Double_Proofs.
Local Open Scope Q_scope.

(** Exactly one of three booleans. *)
Definition one_of (x y z : bool) : Prop := (x, y, z) = (true, false, false) \/ (x, y, z) = (false, true, false) \/ (x, y, z) = (false, false, true).

(** C54, what the comparisons decide, in exact arithmetic: eq, that the distance
    relative to the smaller magnitude is below epsilon (the absolute distance if
    the smaller magnitude is 0). *)
Theorem C54_eq_meaning : forall eps a b : Q, d_eq exact (Fin eps) (Fin a) (Fin b) = true <->
  (Qmin (Qabs a) (Qabs b) == 0 /\ Qabs (a - b) < eps) \/ (~ Qmin (Qabs a) (Qabs b) == 0 /\ Qabs (a - b) < eps * Qmin (Qabs a) (Qabs b)).
Proof. exact d_eq_exact. Qed.
Print Assumptions C54_eq_meaning.

(** C54, coherence in exact arithmetic. *)
Theorem C54_coherent : forall eps a b : Q, 0 < eps ->
  let eq x y := d_eq exact (Fin eps) (Fin x) (Fin y) in
  let lt x y := d_lt exact (Fin eps) (Fin x) (Fin y) in
  let gt x y := d_gt exact (Fin eps) (Fin x) (Fin y) in
  let leq x y := d_leq exact (Fin eps) (Fin x) (Fin y) in
  let geq x y := d_geq exact (Fin eps) (Fin x) (Fin y) in
  eq a a = true /\ eq a b = eq b a /\ gt a b = lt b a /\ geq a b = leq b a /\
  one_of (lt a b) (eq a b) (gt a b) /\
  leq a b = lt a b || eq a b /\ leq a b = negb (gt a b) /\ geq a b = negb (lt a b) /\
  (lt a b = true -> a < b) /\ (a <= b -> leq a b = true) /\ (leq a b && leq b a = eq a b).
Proof.
  intros eps a b He. cbv zeta. unfold d_lt, d_gt, d_leq, d_geq.
  change (@nlt exact (Fin a) (Fin b)) with (xlt (Fin a) (Fin b)). change (@nlt exact (Fin b) (Fin a)) with (xlt (Fin b) (Fin a)).
  rewrite (d_eq_sym_exact eps b a). split; [apply d_eq_same; [exact He|reflexivity]|].
  set (e := d_eq exact (Fin eps) (Fin a) (Fin b)).
  assert (T : (xlt (Fin a) (Fin b) = true /\ xlt (Fin b) (Fin a) = false /\ a < b) \/ (xlt (Fin a) (Fin b) = false /\ xlt (Fin b) (Fin a) = true /\ b < a) \/ (xlt (Fin a) (Fin b) = false /\ xlt (Fin b) (Fin a) = false /\ e = true /\ a == b)).
  { destruct (Q_dec a b) as [[H|H]|H].
    - left. split; [now apply xlt_fin|]. split; [apply xlt_fin_false; lra|exact H].
    - right; left. split; [apply xlt_fin_false; lra|]. split; [now apply xlt_fin|exact H].
    - right; right. split; [apply xlt_fin_false; lra|]. split; [apply xlt_fin_false; lra|]. split; [now apply d_eq_same|exact H]. }
  unfold one_of. destruct T as [(-> & -> & H)|[(-> & -> & H)|(-> & -> & -> & H)]]; try destruct e; cbn; repeat split; auto; intros; (discriminate || lra).
Qed.
Print Assumptions C54_coherent.
Example C54_ex : d_eq exact (Fin (1 # 10)) (Fin 1) (Fin (21 # 20)) = true /\ d_lt exact (Fin (1 # 10)) (Fin 1) (Fin 2) = true /\ d_eq exact (Fin (1 # 10)) (Fin 0) (Fin (1 # 20)) = true.
Proof. repeat split; vm_compute; reflexivity. Qed.

(** setEpsilonDigits(n) and setEpsilonBits(n) make epsilon 10^-n and 2^-n. *)
Theorem C54_epsilon : forall n, (exists r, epsilonDigits exact n = Fin r /\ r * inject_Z (10 ^ Z.of_nat n) == 1 /\ 0 < r) /\
  (exists r, epsilonBits exact n = Fin r /\ r * inject_Z (2 ^ Z.of_nat n) == 1 /\ 0 < r).
Proof.
  assert (P : forall b n r, (1 < b)%Z -> r * inject_Z (b ^ Z.of_nat n) == 1 -> 0 < r).
  { intros b n r Hb E. assert (B : 0 < inject_Z (b ^ Z.of_nat n)) by (change 0 with (inject_Z 0); rewrite <- Zlt_Qlt; apply Z.pow_pos_nonneg; lia).
    destruct (Qlt_le_dec 0 r) as [H|H]; [exact H|]. exfalso. assert (r * inject_Z (b ^ Z.of_nat n) <= 0 * inject_Z (b ^ Z.of_nat n)) by (apply Qmult_le_compat_r; lra). rewrite E in H0. lra. }
  intros n. split.
  - destruct (eps_loop_exact 10 eq_refl n 1) as (r & E & H). exists r. split; [exact E|]. split; [exact H|exact (P 10%Z n r eq_refl H)].
  - destruct (eps_loop_exact 2 eq_refl n 1) as (r & E & H). exists r. split; [exact E|]. split; [exact H|exact (P 2%Z n r eq_refl H)].
Qed.
Print Assumptions C54_epsilon.

(** C54 for doubles. eq is symmetric for all doubles, infinities and NaN included,
    and every epsilon. *)
Theorem C54_double_symmetric : forall eps a b : ieee, d_eq ieee eps a b = d_eq ieee eps b a /\
  d_gt ieee eps a b = d_lt ieee eps b a /\ d_geq ieee eps a b = d_leq ieee eps b a.
Proof. intros eps a b. split; [apply d_eq_sym_ieee|]. unfold d_gt, d_lt, d_geq, d_leq. rewrite (d_eq_sym_ieee eps b a). split; reflexivity. Qed.
Print Assumptions C54_double_symmetric.

(** For all finite doubles and every positive epsilon the comparisons are coherent,
    whatever the rounding of the difference and the quotient does. *)
Theorem C54_double_coherent : forall eps a b : ieee, BinarySingleNaN.is_finite a = true -> BinarySingleNaN.is_finite b = true -> nlt (of_int 0) eps = true ->
  d_eq ieee eps a a = true /\ one_of (d_lt ieee eps a b) (d_eq ieee eps a b) (d_gt ieee eps a b) /\
  d_leq ieee eps a b = d_lt ieee eps a b || d_eq ieee eps a b /\ d_leq ieee eps a b = negb (d_gt ieee eps a b) /\ (nle a b = true -> d_leq ieee eps a b = true).
Proof.
  intros eps a b Fa Fb He. split; [now apply d_eq_refl_fin|].
  assert (T : (nlt a b = true /\ nlt b a = false /\ nle a b = true) \/ (nlt a b = false /\ nlt b a = true /\ nle a b = false) \/ ((nlt a b = false /\ nlt b a = false /\ nle a b = true) /\ d_eq ieee eps a b = true)).
  { destruct (order_fin a b Fa Fb) as [(A & B & C)|[(A & B & C)|(A & B & C & E)]]; match type of A with _ = ?x => change (@nlt ieee a b = x) in A end; match type of B with _ = ?x => change (@nlt ieee b a = x) in B end; match type of C with _ = ?x => change (@nle ieee a b = x) in C end; rewrite A, B, C; auto.
    right. right. split; [auto|]. now apply d_eq_refl_fin. }
  unfold one_of, d_lt, d_gt, d_leq. destruct T as [(-> & -> & ->)|[(-> & -> & ->)|((-> & -> & ->) & ->)]]; try destruct (d_eq ieee eps a b); cbn; repeat split; auto.
Qed.
Print Assumptions C54_double_coherent.
Example C54_double_ex : BinarySingleNaN.is_finite (of_Z 3) = true /\ nlt (of_int 0) (@ndiv ieee (of_int 1) (of_int 1000)) = true /\ d_lt ieee (ndiv (of_int 1) (of_int 1000)) (of_Z 3) (of_Z 4) = true.
Proof. repeat split; vm_compute; reflexivity. Qed.

(** Infinity is not equal to itself and not at most itself, whatever epsilon. *)
Theorem C54_infinity_refuted : forall eps : ieee, d_eq ieee eps pinf pinf = false /\ d_leq ieee eps pinf pinf = false /\ d_geq ieee eps pinf pinf = false.
Proof. intros eps. repeat split; reflexivity. Qed.
Print Assumptions C54_infinity_refuted.

(** setEpsilonBits(1100) makes epsilon 0: no number is equal to itself any more. *)
Theorem C54_epsilon_underflow_refuted : d_eq ieee (epsilonBits ieee 1100) (of_int 1) (of_int 1) = false.
Proof. vm_compute. reflexivity. Qed.
Print Assumptions C54_epsilon_underflow_refuted.
