(** The real error function: derivative, bound and limit. *)
From Coq Require Import Reals Lra Lia Psatz.
From Coquelicot Require Import Coquelicot.
From Verif Require Import MathFns_RealSpec.
Local Open Scope R_scope.

Lemma bell_cont x : continuous bell x.
Proof. apply (ex_derive_continuous bell). unfold bell. auto_derive. exact I. Qed.
Lemma bell_int a b : ex_RInt bell a b.
Proof. apply (ex_RInt_continuous (V := R_CompleteNormedModule)). intros. apply bell_cont. Qed.
Lemma area_deriv (x : R) : is_derive area x (bell x).
Proof. apply (is_derive_RInt (V := R_NormedModule)) with (a := 0); [|apply bell_cont]. apply filter_forall. intros b. apply (RInt_correct (V := R_CompleteNormedModule)), bell_int. Qed.
Lemma area_0 : area 0 = 0.
Proof. unfold area. rewrite RInt_point. reflexivity. Qed.
Lemma Rerf_deriv x : derivable_pt_lim Rerf x (2 / sqrt PI * exp (- (x * x))).
Proof.
  apply is_derive_Reals. unfold Rerf. apply is_derive_scal with (f := area). apply area_deriv.
Qed.
Lemma Rerf_0 : Rerf 0 = 0.
Proof. unfold Rerf. rewrite area_0. ring. Qed.

(** The companion integral: area^2 + rest is constant. *)
Definition kernel (x t : R) : R := exp (- (x * x * (1 + t * t))) / (1 + t * t).
Definition rest (x : R) : R := RInt (kernel x) 0 1.
Lemma one_sq t : 0 < 1 + t * t.
Proof. nra. Qed.
Lemma kernel_deriv (x t : R) : is_derive (fun u => kernel u t) x (-2 * x * exp (- (x * x * (1 + t * t)))).
Proof. pose proof (one_sq t). unfold kernel. auto_derive; [lra|]. field. lra. Qed.
Lemma kernel_int x a b : ex_RInt (kernel x) a b.
Proof.
  apply (ex_RInt_continuous (V := R_CompleteNormedModule)). intros t _. apply (ex_derive_continuous (kernel x)). unfold kernel. pose proof (one_sq t). auto_derive. lra.
Qed.
Lemma exp_cont2 x t : continuity_2d_pt (fun u v => -2 * u * exp (- (u * u * (1 + v * v)))) x t.
Proof.
  apply continuity_2d_pt_mult.
  - apply continuity_2d_pt_mult; [apply continuity_2d_pt_const|apply continuity_2d_pt_id1].
  - apply (continuity_1d_2d_pt_comp exp (fun u v => - (u * u * (1 + v * v)))).
    + apply derivable_continuous_pt, derivable_pt_exp.
    + apply continuity_2d_pt_opp. repeat apply continuity_2d_pt_mult; try apply continuity_2d_pt_id1. apply continuity_2d_pt_plus; [apply continuity_2d_pt_const|apply continuity_2d_pt_mult; apply continuity_2d_pt_id2].
Qed.
Lemma rest_deriv (x : R) : is_derive rest x (- 2 * bell x * area x).
Proof.
  assert (D : is_derive rest x (RInt (fun t => Derive (fun u => kernel u t) x) 0 1)).
  { apply is_derive_RInt_param.
    - apply filter_forall. intros u t _. eexists. apply kernel_deriv.
    - intros t _. apply continuity_2d_pt_ext with (f := fun u v => -2 * u * exp (- (u * u * (1 + v * v)))); [intros u v; symmetry; apply is_derive_unique, kernel_deriv|apply exp_cont2].
    - apply filter_forall. intros u. apply kernel_int. }
  replace (- 2 * bell x * area x) with (RInt (fun t => Derive (fun u => kernel u t) x) 0 1); [exact D|].
  rewrite (RInt_ext _ (fun t => scal (- 2 * bell x) (scal x (bell (x * t + 0))))).
  - assert (I1 : ex_RInt (fun t => scal x (bell (x * t + 0))) 0 1) by (apply (ex_RInt_comp_lin (V := R_NormedModule) bell x 0 0 1); apply bell_int).
    assert (E1 : RInt (fun t => scal (-2 * bell x) (scal x (bell (x * t + 0)))) 0 1 = scal (-2 * bell x) (RInt (fun t => scal x (bell (x * t + 0))) 0 1)) by (apply (RInt_scal (V := R_CompleteNormedModule)); exact I1).
    assert (E2 : RInt (fun t => scal x (bell (x * t + 0))) 0 1 = RInt bell (x * 0 + 0) (x * 1 + 0)) by (apply (RInt_comp_lin (V := R_CompleteNormedModule)); apply bell_int).
    rewrite E1, E2. replace (x * 0 + 0) with 0 by ring. replace (x * 1 + 0) with x by ring. reflexivity.
  - intros t _. transitivity (-2 * x * exp (- (x * x * (1 + t * t)))); [apply is_derive_unique, kernel_deriv|]. unfold scal. cbn. unfold mult. cbn. unfold bell. replace (- (x * x * (1 + t * t))) with (- (x * x) + - ((x * t + 0) * (x * t + 0))) by ring. rewrite exp_plus. ring.
Qed.
Lemma rest_0 : rest 0 = PI / 4.
Proof.
  unfold rest. rewrite (RInt_ext _ (fun t => / (1 + t * t))).
  - apply is_RInt_unique. replace (PI / 4) with (minus (atan 1) (atan 0)) by (rewrite atan_1, atan_0; unfold minus, plus, opp; cbn; lra).
    apply (is_RInt_derive (V := R_CompleteNormedModule) atan (fun t => / (1 + t * t))).
    + intros t _. apply is_derive_Reals. replace (/ (1 + t * t)) with (/ (1 + t ^ 2)) by (replace (t ^ 2) with (t * t) by ring; reflexivity). apply derivable_pt_lim_atan.
    + intros t _. apply (ex_derive_continuous (fun t => / (1 + t * t))). pose proof (one_sq t). auto_derive. lra.
  - intros t _. unfold kernel. assert (Z : - (0 * 0 * (1 + t * t)) = 0) by ring. rewrite Z, exp_0. unfold Rdiv. apply Rmult_1_l.
Qed.
Lemma const_of_zero_derive (f : R -> R) : (forall x, is_derive f x 0) -> forall x, f x = f 0.
Proof.
  intros D x. destruct (MVT_gen f 0 x (fun _ => 0)) as (c & _ & E).
  - intros; apply D.
  - intros z _. apply continuity_pt_filterlim. apply (ex_derive_continuous f). eexists. apply D.
  - lra.
Qed.
Lemma area_rest x : area x * area x + rest x = PI / 4.
Proof.
  rewrite <- rest_0. assert (E : forall z, area z * area z + rest z = area 0 * area 0 + rest 0).
  { apply (const_of_zero_derive (fun z => area z * area z + rest z)). intros z.
    evar_last; [apply (is_derive_plus (fun z => area z * area z) rest z); [apply (is_derive_mult area area z (bell z) (bell z)); [apply area_deriv|apply area_deriv|intros; apply Rmult_comm]|apply rest_deriv]|]. unfold plus, mult; cbn. ring. }
  rewrite E, area_0. ring.
Qed.
Lemma rest_pos x : 0 < rest x.
Proof.
  unfold rest. apply RInt_gt_0; [lra| |].
  - intros t _. unfold kernel. apply Rdiv_lt_0_compat; [apply exp_pos|apply one_sq].
  - intros t _. apply (ex_derive_continuous (kernel x)). unfold kernel. pose proof (one_sq t). auto_derive. lra.
Qed.
Lemma rest_small x : rest x <= bell x.
Proof.
  unfold rest. replace (bell x) with (RInt (fun _ => bell x) 0 1) by (rewrite RInt_const; unfold scal; cbn; unfold mult; cbn; ring).
  apply RInt_le; [lra|apply kernel_int|apply ex_RInt_const|]. intros t _. unfold kernel, bell.
  assert (exp (- (x * x * (1 + t * t))) <= exp (- (x * x))). { destruct (Rle_lt_or_eq_dec (- (x * x * (1 + t * t))) (- (x * x))) as [L|L]; [nra|left; now apply exp_increasing|rewrite L; lra]. }
  pose proof (one_sq t) as P. apply Rle_trans with (exp (- (x * x * (1 + t * t)))); [|assumption]. apply Rmult_le_reg_r with (1 + t * t); [exact P|]. unfold Rdiv. rewrite Rmult_assoc, Rinv_l by lra. pose proof (exp_pos (- (x * x * (1 + t * t)))). nra.
Qed.
Lemma sqrt_PI_sq : sqrt PI * sqrt PI = PI.
Proof. apply sqrt_sqrt. left. apply PI_RGT_0. Qed.
Lemma sqrt_PI_pos : 0 < sqrt PI.
Proof. apply sqrt_lt_R0, PI_RGT_0. Qed.
Lemma Rerf_sq x : Rerf x * Rerf x = 1 - 4 / PI * rest x.
Proof.
  unfold Rerf. pose proof (area_rest x) as E. pose proof sqrt_PI_pos. pose proof PI_RGT_0. replace (2 / sqrt PI * area x * (2 / sqrt PI * area x)) with (4 / (sqrt PI * sqrt PI) * (area x * area x)) by (field; lra). rewrite sqrt_PI_sq. replace (area x * area x) with (PI / 4 - rest x) by lra. field. lra.
Qed.
Lemma Rerf_lt_1 x : Rerf x < 1.
Proof.
  pose proof (Rerf_sq x) as E. pose proof (rest_pos x). pose proof PI_RGT_0. assert (0 < 4 / PI * rest x) by (apply Rmult_lt_0_compat; [apply Rdiv_lt_0_compat; lra|assumption]). nra.
Qed.
Lemma Rerf_cont : continuity Rerf.
Proof. intros x. apply derivable_continuous_pt. eexists. apply Rerf_deriv. Qed.
Lemma Rerf_nonneg x : 0 <= x -> 0 <= Rerf x.
Proof.
  intros H. unfold Rerf, area. pose proof sqrt_PI_pos. apply Rmult_le_pos; [left; apply Rdiv_lt_0_compat; lra|]. apply RInt_ge_0; [exact H|apply bell_int|]. intros. left. apply exp_pos.
Qed.
(** Every number between 0 and 1 is an erf. *)
Lemma Rerf_onto y : 0 < y < 1 -> exists r, 0 < r /\ Rerf r = y.
Proof.
  intros (H0 & H1). set (X := 4 / (1 - y)).
  assert (HX : y < Rerf X).
  { pose proof (Rerf_sq X) as E. pose proof (rest_small X) as S. pose proof PI_RGT_0. pose proof PI2_3_2 as P3. assert (PX : 4 < X) by (unfold X; apply Rmult_lt_reg_r with (1 - y); [lra|]; unfold Rdiv; rewrite Rmult_assoc, Rinv_l by lra; lra).
    assert (B : bell X <= / (1 + X * X)). { unfold bell. rewrite exp_Ropp. apply Rinv_le_contravar; [nra|]. apply exp_ineq1_le. }
    assert (B2 : / (1 + X * X) <= (1 - y) / 4). { replace ((1 - y) / 4) with (/ X) by (unfold X; field; lra). apply Rinv_le_contravar; nra. }
    assert (P4 : 4 / PI * rest X <= 2 * ((1 - y) / 4)). { pose proof (rest_pos X). assert (4 / PI <= 2) by (apply Rmult_le_reg_r with PI; [assumption|]; unfold Rdiv; rewrite Rmult_assoc, Rinv_l by lra; lra). assert (0 < 4 / PI) by (apply Rdiv_lt_0_compat; lra). nra. }
    pose proof (Rerf_nonneg X). assert (Rerf X * Rerf X >= 1 - (1 - y) / 2) by lra. nra. }
  assert (X0 : 0 < X) by (unfold X; apply Rdiv_lt_0_compat; lra).
  destruct (IVT (fun x => Rerf x - y) 0 X) as (r & (R0 & R1) & E).
  - intros x. apply continuity_pt_minus; [apply Rerf_cont|]. apply continuity_pt_const. intros ? ?. reflexivity.
  - exact X0.
  - rewrite Rerf_0. lra.
  - lra.
  - exists r. split; [|lra]. destruct R0 as [R0|R0]; [exact R0|]. exfalso. subst r. rewrite Rerf_0 in E. lra.
Qed.
