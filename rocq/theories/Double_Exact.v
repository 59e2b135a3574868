(** Lemmas about the tolerance comparisons in exact arithmetic. *)
From Coq Require Import ZArith QArith Qabs Qminmax Lqa Bool Lia.
From Verif Require Import Common Arith Stats_Proofs Double_Model.
Local Open Scope Q_scope.

Lemma xabs_fin q : exists r, dabs exact (Fin q) = Fin r /\ r == Qabs q.
Proof.
  unfold dabs. change (@nlt exact (Fin q) (of_int 0)) with (xlt (Fin q) (Fin 0)). destruct (xlt (Fin q) (Fin 0)) eqn:E.
  - apply xlt_fin in E. exists (- q). split; [reflexivity|]. rewrite Qabs_neg by lra. reflexivity.
  - apply xlt_fin_false in E. exists q. split; [reflexivity|]. rewrite Qabs_pos by lra. reflexivity.
Qed.
Lemma bool_iff (b : bool) P : (b = true <-> P) -> b = false <-> ~ P.
Proof. destruct b; intros [H1 H2]; split; intros; try discriminate; auto. exfalso. auto. intros H3. discriminate (H2 H3). Qed.

(** What eq decides. *)
Lemma d_eq_exact eps a b : d_eq exact (Fin eps) (Fin a) (Fin b) = true <->
  (Qmin (Qabs a) (Qabs b) == 0 /\ Qabs (a - b) < eps) \/ (~ Qmin (Qabs a) (Qabs b) == 0 /\ Qabs (a - b) < eps * Qmin (Qabs a) (Qabs b)).
Proof.
  unfold d_eq. destruct (xabs_fin a) as (x & -> & Ex), (xabs_fin b) as (y & -> & Ey).
  change (@nsub exact (Fin a) (Fin b)) with (Fin (a + - b)). destruct (xabs_fin (a + - b)) as (d & -> & Ed).
  assert (M : exists m, dmin exact (Fin x) (Fin y) = Fin m /\ m == Qmin (Qabs a) (Qabs b)).
  { unfold dmin. change (@nlt exact (Fin y) (Fin x)) with (xlt (Fin y) (Fin x)). destruct (xlt (Fin y) (Fin x)) eqn:E.
    - apply xlt_fin in E. exists y. split; [reflexivity|]. rewrite Q.min_r by lra. exact Ey.
    - apply xlt_fin_false in E. exists x. split; [reflexivity|]. rewrite Q.min_l by lra. exact Ex. }
  destruct M as (m & -> & Em). change (@neq exact (Fin m) (of_int 0)) with (Qeq_bool m 0).
  pose proof (Qabs_nonneg a) as Pa. pose proof (Qabs_nonneg b) as Pb.
  assert (Pm : 0 <= m) by (rewrite Em; apply Q.min_glb; assumption).
  assert (Ed' : d == Qabs (a - b)) by (rewrite Ed; reflexivity).
  destruct (Qeq_bool m 0) eqn:Z.
  - apply Qeq_bool_iff in Z. change (@nlt exact (Fin d) (Fin eps)) with (xlt (Fin d) (Fin eps)). rewrite xlt_fin, <- Em, <- Ed'. split; [intros H; left; auto|intros [[_ H]|[H _]]; [exact H|contradiction]].
  - apply Qeq_bool_neq in Z. change (@ndiv exact (Fin d) (Fin m)) with (xdiv (Fin d) (Fin m)). cbn [xdiv]. replace (Qeq_bool m 0) with false by (symmetry; now apply Qeq_bool_false).
    change (@nlt exact (Fin (d / m)) (Fin eps)) with (xlt (Fin (d / m)) (Fin eps)). rewrite xlt_fin, <- Em, <- Ed'. assert (0 < m) by (apply Qle_lteq in Pm; destruct Pm as [P|P]; [exact P|exfalso; apply Z; symmetry; exact P]).
    split.
    + intros H1. right. split; [exact Z|]. apply (Qmult_lt_compat_r _ _ m) in H1; [|assumption]. rewrite Qmult_comm in H1. rewrite Qmult_div_r in H1 by assumption. exact H1.
    + intros [[C _]|[_ H1]]; [contradiction|]. apply Qlt_shift_div_r; assumption.
Qed.
Lemma d_eq_sym_exact eps a b : d_eq exact (Fin eps) (Fin a) (Fin b) = d_eq exact (Fin eps) (Fin b) (Fin a).
Proof.
  apply eq_true_iff_eq. rewrite !d_eq_exact. rewrite (Q.min_comm (Qabs a)), (Qabs_Qminus a b). reflexivity.
Qed.
Lemma d_eq_same eps a b : 0 < eps -> a == b -> d_eq exact (Fin eps) (Fin a) (Fin b) = true.
Proof.
  intros He E. apply d_eq_exact. assert (Z : Qabs (a - b) == 0) by (rewrite E; setoid_replace (b - b) with 0 by ring; reflexivity). rewrite Z.
  destruct (Qeq_dec (Qmin (Qabs a) (Qabs b)) 0) as [M|M]; [left; auto|right; split; [exact M|]].
  assert (0 <= Qmin (Qabs a) (Qabs b)) by (apply Q.min_glb; apply Qabs_nonneg). apply Qle_lteq in H. destruct H as [H|H]; [|exfalso; apply M; symmetry; exact H].
  setoid_replace 0 with (0 * Qmin (Qabs a) (Qabs b)) by ring. apply Qmult_lt_compat_r; assumption.
Qed.
Lemma eps_loop_exact base : (1 < base)%Z -> forall n q, exists r, eps_loop exact n base (Fin q) = Fin r /\ r * inject_Z (base ^ Z.of_nat n) == q.
Proof.
  intros Hb. assert (NB : ~ inject_Z base == 0) by (change 0 with (inject_Z 0); rewrite inject_Z_injective; lia).
  induction n as [|n IH]; intros q; [exists q; split; [reflexivity|cbn; ring]|]. cbn [eps_loop].
  change (@ndiv exact (Fin q) (of_int base)) with (xdiv (Fin q) (Fin (inject_Z base))). cbn [xdiv]. replace (Qeq_bool (inject_Z base) 0) with false by (symmetry; now apply Qeq_bool_false).
  destruct (IH (q / inject_Z base)) as (r & Er & Hr). exists r. split; [exact Er|]. rewrite Nat2Z.inj_succ, Z.pow_succ_r by apply Nat2Z.is_nonneg. rewrite inject_Z_mult.
  setoid_replace (r * (inject_Z base * inject_Z (base ^ Z.of_nat n))) with (inject_Z base * (r * inject_Z (base ^ Z.of_nat n))) by ring. rewrite Hr. apply Qmult_div_r. exact NB.
Qed.
