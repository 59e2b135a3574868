(** The moments of the truncated log-normal distribution in terms of erf. *)
From Coq Require Import Reals Lra Psatz.
From Coquelicot Require Import Coquelicot.
From Verif Require Import MathFns_RealSpec MathFns_Gauss LogNormal_Spec.
Local Open Scope R_scope.

Lemma Rerf_odd x : Rerf (- x) = - Rerf x.
Proof.
  assert (E : forall x, Rerf x + Rerf (- x) = Rerf 0 + Rerf (- 0)).
  { apply (const_of_zero_derive (fun x => Rerf x + Rerf (- x))). intros y.
    assert (D1 : is_derive Rerf y (2 / sqrt PI * exp (- (y * y)))) by (apply is_derive_Reals, Rerf_deriv).
    assert (D2 : is_derive Rerf (- y) (2 / sqrt PI * exp (- (- y * - y)))) by (apply is_derive_Reals, Rerf_deriv).
    assert (D3 : is_derive (fun x => Rerf (- x)) y (- 1 * (2 / sqrt PI * exp (- (- y * - y))))).
    { apply (is_derive_comp Rerf Ropp y (2 / sqrt PI * exp (- (- y * - y))) (-1)); [exact D2|]. auto_derive; [exact I|ring]. }
    pose proof (is_derive_plus _ _ _ _ _ D1 D3) as D. cbn in D. replace 0 with (plus (2 / sqrt PI * exp (- (y * y))) (-1 * (2 / sqrt PI * exp (- (- y * - y))))); [exact D|].
    replace (- y * - y) with (y * y) by ring. unfold plus. cbn. ring. }
  specialize (E x). rewrite Ropp_0, Rerf_0 in E. lra.
Qed.
Lemma Rerf_gt x : -1 < Rerf x.
Proof. pose proof (Rerf_lt_1 (- x)) as H. rewrite Rerf_odd in H. lra. Qed.
(** erf tends to -1. *)
Lemma Rerf_minus (eps : R) : 0 < eps -> exists M, forall x, x < M -> Rabs (Rerf x - -1) < eps.
Proof.
  intros He. (* 1 - erf(|x|)^2 <= 4/pi * bell *)
  assert (Q : forall x, 0 <= x -> 0 <= 1 - Rerf x <= 4 / PI * bell x).
  { intros x Hx. pose proof (Rerf_lt_1 x). pose proof (Rerf_nonneg x Hx) as N. pose proof (Rerf_sq x) as S. pose proof (rest_small x) as R. pose proof PI_RGT_0.
    split; [lra|]. assert (4 / PI * rest x <= 4 / PI * bell x) by (apply Rmult_le_compat_l; [apply Rlt_le, Rdiv_lt_0_compat; lra|exact R]). nra. }
  exists (- (1 + 4 / PI / eps)). intros x Hx. pose proof PI_RGT_0 as P. assert (E0 : 0 < 4 / PI / eps) by (repeat apply Rdiv_lt_0_compat; lra).
  specialize (Q (- x) ltac:(lra)). rewrite Rerf_odd in Q. rewrite Rabs_pos_eq by lra. replace (Rerf x - -1) with (1 - - Rerf x) by ring.
  eapply Rle_lt_trans; [apply Q|]. unfold bell. set (y := - x) in *. assert (Hy : 1 + 4 / PI / eps < y) by (unfold y; lra).
  assert (B : exp (- (y * y)) < / y).
  { rewrite exp_Ropp. apply Rinv_lt_contravar; [apply Rmult_lt_0_compat; [lra|apply exp_pos]|]. eapply Rlt_le_trans; [|apply Rlt_le, exp_ineq1; nra]. nra. }
  apply Rlt_trans with (4 / PI * / y); [apply Rmult_lt_compat_l; [apply Rdiv_lt_0_compat; lra|exact B]|].
  apply (Rmult_lt_reg_r y); [lra|]. replace (4 / PI * / y * y) with (4 / PI) by (field; lra).
  replace (4 / PI) with (eps * (4 / PI / eps)) by (field; lra). apply Rmult_lt_compat_l; lra.
Qed.

Section Moments.
Variables m s : R.
Hypothesis Hs : 0 < s.
Definition primitive (r : nat) (x : R) : R :=
  exp (INR r * m + INR r * INR r * s * s / 2) / 2 * Rerf ((ln x - m - INR r * s * s) / (s * sqrt 2)).
Lemma sqrt2_pos : 0 < sqrt 2. Proof. apply sqrt_lt_R0. lra. Qed.
Lemma sqrt2_sq : sqrt 2 * sqrt 2 = 2. Proof. apply sqrt_sqrt. lra. Qed.
Lemma pow_exp x r : 0 < x -> x ^ r = exp (INR r * ln x).
Proof. intros H. induction r as [|r IH]; [cbn; rewrite Rmult_0_l, exp_0; reflexivity|]. rewrite S_INR, Rmult_plus_distr_r, exp_plus, Rmult_1_l, exp_ln by exact H. cbn [pow]. rewrite IH. ring. Qed.
Lemma primitive_deriv r x : 0 < x -> is_derive (primitive r) x (x ^ r * density m s x).
Proof.
  intros Hx. pose proof sqrt2_pos as S2. set (g := fun x : R => (ln x - m - INR r * s * s) / (s * sqrt 2)). set (u := g x).
  assert (D1 : is_derive g x (/ (x * (s * sqrt 2)))).
  { unfold g. auto_derive; [repeat split; assumption|]. field. repeat split; lra. }
  assert (D2 : is_derive Rerf u (2 / sqrt PI * exp (- (u * u)))) by (apply is_derive_Reals, Rerf_deriv).
  pose proof (is_derive_comp Rerf g x _ _ D2 D1) as D3.
  pose proof (is_derive_scal _ x (exp (INR r * m + INR r * INR r * s * s / 2) / 2) _ D3) as D4.
  unfold primitive. match type of D4 with is_derive _ _ ?v => replace (x ^ r * density m s x) with v; [exact D4|] end.
  unfold scal; cbn; unfold mult; cbn. rewrite (pow_exp x r Hx). unfold density. rewrite sqrt_mult by (pose proof PI_RGT_0; lra). pose proof sqrt_PI_pos as SP.
  replace (exp (INR r * m + INR r * INR r * s * s / 2) / 2 * (/ (x * (s * sqrt 2)) * (2 / sqrt PI * exp (- (u * u)))))
    with ((exp (INR r * m + INR r * INR r * s * s / 2) * exp (- (u * u))) / (x * s * (sqrt 2 * sqrt PI))) by (field; repeat split; lra).
  replace (exp (INR r * ln x) * (exp (- (ln x - m) ^ 2 / (2 * s ^ 2)) / (x * s * (sqrt 2 * sqrt PI))))
    with ((exp (INR r * ln x) * exp (- (ln x - m) ^ 2 / (2 * s ^ 2))) / (x * s * (sqrt 2 * sqrt PI))) by (field; repeat split; lra).
  f_equal. rewrite <- !exp_plus. f_equal. unfold u, g.
  replace ((ln x - m - INR r * s * s) / (s * sqrt 2) * ((ln x - m - INR r * s * s) / (s * sqrt 2))) with ((ln x - m - INR r * s * s) ^ 2 / (s * s * (sqrt 2 * sqrt 2))) by (field; repeat split; lra).
  rewrite sqrt2_sq. field. lra.
Qed.
Lemma density_cont r x : 0 < x -> continuous (fun x => x ^ r * density m s x) x.
Proof.
  intros Hx. pose proof (sqrt_lt_R0 (2 * PI) ltac:(pose proof PI_RGT_0; lra)) as S2. apply (ex_derive_continuous (fun x => x ^ r * density m s x)). unfold density. auto_derive.
  assert (x * s * sqrt (2 * PI) <> 0) by (apply Rgt_not_eq; repeat apply Rmult_lt_0_compat; assumption). repeat split; auto.
Qed.
Lemma density_pos x : 0 < x -> 0 < density m s x.
Proof. intros Hx. pose proof (sqrt_lt_R0 (2 * PI) ltac:(pose proof PI_RGT_0; lra)). unfold density. apply Rdiv_lt_0_compat; [apply exp_pos|]. repeat apply Rmult_lt_0_compat; assumption. Qed.
Lemma inside x0 U x : 0 < x0 -> 0 < U -> Rmin x0 U <= x -> 0 < x.
Proof. intros A B C. pose proof (Rmin_glb_lt _ _ _ A B). lra. Qed.
Lemma density_int r x0 U : 0 < x0 -> 0 < U -> ex_RInt (fun x => x ^ r * density m s x) x0 U.
Proof. intros A B. apply (ex_RInt_continuous (V := R_CompleteNormedModule)). intros x (L & _). apply density_cont. exact (inside _ _ _ A B L). Qed.
Lemma part_primitive r U x0 : 0 < x0 -> 0 < U -> part r m s U x0 = primitive r U - primitive r x0.
Proof.
  intros A B. unfold part. apply is_RInt_unique. apply (is_RInt_derive (V := R_CompleteNormedModule) (primitive r)).
  - intros x (L & _). apply primitive_deriv. exact (inside _ _ _ A B L).
  - intros x (L & _). apply density_cont. exact (inside _ _ _ A B L).
Qed.
Lemma primitive_0 r : filterlim (primitive r) (at_right 0) (locally (- (exp (INR r * m + INR r * INR r * s * s / 2) / 2))).
Proof.
  apply filterlim_locally. intros eps. set (c := exp (INR r * m + INR r * INR r * s * s / 2) / 2). assert (Hc : 0 < c) by (unfold c; pose proof (exp_pos (INR r * m + INR r * INR r * s * s / 2)); lra).
  destruct (Rerf_minus (eps / c)) as (M & HM); [apply Rdiv_lt_0_compat; [apply cond_pos|exact Hc]|].
  pose proof sqrt2_pos as S2. set (B := exp (M * (s * sqrt 2) + m + INR r * s * s)).
  exists (mkposreal B (exp_pos _)). intros x Hb Hx. unfold ball in *; cbn in *; unfold AbsRing_ball in *; cbn in *. unfold abs, minus, plus, opp in *; cbn in *.
  rewrite Ropp_0, Rplus_0_r, Rabs_pos_eq in Hb by lra. unfold primitive. fold c.
  replace (c * Rerf ((ln x - m - INR r * s * s) / (s * sqrt 2)) + - - c) with (c * (Rerf ((ln x - m - INR r * s * s) / (s * sqrt 2)) - -1)) by ring.
  rewrite Rabs_mult, (Rabs_pos_eq c) by lra. replace (pos eps) with (c * (eps / c)) by (field; lra). apply Rmult_lt_compat_l; [exact Hc|]. apply HM.
  assert (P : 0 < s * sqrt 2) by (apply Rmult_lt_0_compat; assumption). apply (Rmult_lt_reg_r (s * sqrt 2)); [exact P|]. unfold Rdiv. rewrite Rmult_assoc, Rinv_l, Rmult_1_r by lra.
  pose proof (ln_increasing _ _ Hx Hb) as L. unfold B in L. rewrite ln_exp in L. lra.
Qed.
(** The mass and the moments. *)
Definition mass (r : nat) (U : R) : R := exp (INR r * m + INR r * INR r * s * s / 2) / 2 * (1 + Rerf ((ln U - m - INR r * s * s) / (s * sqrt 2))).
Lemma mass_pos r U : 0 < mass r U.
Proof. unfold mass. pose proof (exp_pos (INR r * m + INR r * INR r * s * s / 2)). pose proof (Rerf_gt ((ln U - m - INR r * s * s) / (s * sqrt 2))). apply Rmult_lt_0_compat; lra. Qed.
Lemma mass_whole r U : 0 < U -> whole r m s U (mass r U).
Proof.
  intros HU. unfold whole. apply (filterlim_ext_loc (fun x0 => primitive r U - primitive r x0)).
  - exists (mkposreal 1 Rlt_0_1). intros x _ Hx. symmetry. apply part_primitive; assumption.
  - replace (mass r U) with (plus (primitive r U) (opp (- (exp (INR r * m + INR r * INR r * s * s / 2) / 2)))) by (unfold plus, opp; cbn; unfold mass, primitive; ring).
    apply (filterlim_comp_2 (G := locally (primitive r U)) (H := locally (opp (- (exp (INR r * m + INR r * INR r * s * s / 2) / 2)))) (fun _ => primitive r U) (fun x0 => opp (primitive r x0)) (fun a b : R => plus a b)).
    + apply filterlim_const.
    + apply (filterlim_comp _ _ _ (primitive r) opp _ (locally (- (exp (INR r * m + INR r * INR r * s * s / 2) / 2)))); [apply primitive_0|]. apply (filterlim_opp (K := R_AbsRing) (V := R_NormedModule)).
    + apply (filterlim_plus (K := R_AbsRing) (V := R_NormedModule)).
Qed.
Lemma whole_unique r U N N' : whole r m s U N -> whole r m s U N' -> N = N'.
Proof.
  intros A B. apply (filterlim_locally_unique (K := R_AbsRing) (V := R_NormedModule) (F := at_right 0) (part r m s U)); assumption.
Qed.
Lemma moment_mass r U M : 0 < U -> moment r m s U M <-> M = mass r U / mass 0 U.
Proof.
  intros HU. split.
  - intros (N0 & Nr & W0 & Wr & P & ->). rewrite (whole_unique _ _ _ _ W0 (mass_whole 0 U HU)), (whole_unique _ _ _ _ Wr (mass_whole r U HU)). reflexivity.
  - intros ->. exists (mass 0 U), (mass r U). repeat split; [now apply mass_whole|now apply mass_whole|apply mass_pos].
Qed.
(** The same above [U]. *)
Definition rest_mass (r : nat) (U : R) : R := exp (INR r * m + INR r * INR r * s * s / 2) / 2 * (1 - Rerf ((ln U - m - INR r * s * s) / (s * sqrt 2))).
Lemma rest_mass_pos r U : 0 < rest_mass r U.
Proof. unfold rest_mass. pose proof (exp_pos (INR r * m + INR r * INR r * s * s / 2)). pose proof (Rerf_lt_1 ((ln U - m - INR r * s * s) / (s * sqrt 2))). apply Rmult_lt_0_compat; lra. Qed.
Lemma primitive_inf r : filterlim (primitive r) (Rbar_locally p_infty) (locally (exp (INR r * m + INR r * INR r * s * s / 2) / 2)).
Proof.
  apply filterlim_locally. intros eps. set (c := exp (INR r * m + INR r * INR r * s * s / 2) / 2). assert (Hc : 0 < c) by (unfold c; pose proof (exp_pos (INR r * m + INR r * INR r * s * s / 2)); lra).
  destruct (Rerf_minus (eps / c)) as (M & HM); [apply Rdiv_lt_0_compat; [apply cond_pos|exact Hc]|].
  pose proof sqrt2_pos as S2. exists (exp (- M * (s * sqrt 2) + m + INR r * s * s)). intros x Hb. unfold ball in *; cbn in *; unfold AbsRing_ball in *; cbn in *. unfold abs, minus, plus, opp in *; cbn in *.
  unfold primitive. fold c. set (w := (ln x - m - INR r * s * s) / (s * sqrt 2)). specialize (HM (- w)). rewrite Rerf_odd in HM.
  replace (c * Rerf w + - c) with (c * - (- Rerf w - -1)) by ring. rewrite Rabs_mult, Rabs_Ropp, (Rabs_pos_eq c) by lra.
  replace (pos eps) with (c * (eps / c)) by (field; lra). apply Rmult_lt_compat_l; [exact Hc|]. apply HM.
  assert (P : 0 < s * sqrt 2) by (apply Rmult_lt_0_compat; assumption). assert (- M < w); [|lra]. unfold w. apply (Rmult_lt_reg_r (s * sqrt 2)); [exact P|]. unfold Rdiv. rewrite Rmult_assoc, Rinv_l, Rmult_1_r by lra.
  pose proof (ln_increasing _ _ (exp_pos _) Hb) as L. rewrite ln_exp in L. lra.
Qed.
Lemma rest_whole r U : 0 < U -> whole_above r m s U (rest_mass r U).
Proof.
  intros HU. unfold whole_above. apply (filterlim_ext_loc (fun x1 => primitive r x1 - primitive r U)).
  - exists 0. intros x Hx. symmetry. apply part_primitive; assumption.
  - replace (rest_mass r U) with (plus (exp (INR r * m + INR r * INR r * s * s / 2) / 2) (opp (primitive r U))) by (unfold plus, opp; cbn; unfold rest_mass, primitive; ring).
    apply (filterlim_comp_2 (G := locally (exp (INR r * m + INR r * INR r * s * s / 2) / 2)) (H := locally (opp (primitive r U))) (primitive r) (fun _ => opp (primitive r U)) (fun a b : R => plus a b)).
    + apply primitive_inf.
    + apply filterlim_const.
    + apply (filterlim_plus (K := R_AbsRing) (V := R_NormedModule)).
Qed.
Lemma above_mass r U M : 0 < U -> moment_above r m s U M <-> M = rest_mass r U / rest_mass 0 U.
Proof.
  intros HU. assert (Un : forall r N, whole_above r m s U N -> N = rest_mass r U).
  { intros q N W. apply (filterlim_locally_unique (K := R_AbsRing) (V := R_NormedModule) (F := Rbar_locally p_infty) (fun x1 => RInt (fun x => x ^ q * density m s x) U x1)); [exact W|now apply rest_whole]. }
  split.
  - intros (N0 & Nr & W0 & Wr & P & ->). rewrite (Un _ _ W0), (Un _ _ Wr). reflexivity.
  - intros ->. exists (rest_mass 0 U), (rest_mass r U). repeat split; [now apply rest_whole|now apply rest_whole|apply rest_mass_pos].
Qed.
(** The mean is below the limit, or above it. *)
Lemma moment_below r U M : 0 < U -> moment r m s U M -> 0 < M <= U ^ r.
Proof.
  intros HU (N0 & N1 & W0 & W1 & P & ->). assert (N1 <= U ^ r * N0).
  { apply (filterlim_le (F := at_right 0) (part r m s U) (fun x0 => scal (U ^ r) (part 0 m s U x0)) N1 (U ^ r * N0)).
    - exists (mkposreal U HU). intros x Hb Hx. unfold ball in Hb; cbn in Hb; unfold AbsRing_ball in Hb; cbn in Hb. unfold abs, minus, plus, opp in Hb; cbn in Hb. rewrite Ropp_0, Rplus_0_r, Rabs_pos_eq in Hb by lra.
      unfold part. assert (E : RInt (fun y => scal (U ^ r) (y ^ 0 * density m s y)) x U = U ^ r * RInt (fun x => x ^ 0 * density m s x) x U) by (apply (RInt_scal (V := R_CompleteNormedModule)), density_int; assumption). change (RInt (fun x0 => x0 ^ r * density m s x0) x U <= U ^ r * RInt (fun x => x ^ 0 * density m s x) x U). rewrite <- E.
      apply RInt_le; [lra|now apply density_int|apply (ex_RInt_scal (V := R_NormedModule)), density_int; assumption|].
      intros y Hy. unfold scal; cbn; unfold mult; cbn. pose proof (density_pos y ltac:(lra)). pose proof (pow_incr y U r ltac:(lra)). nra.
    - exact W1.
    - apply (filterlim_comp _ _ _ (part 0 m s U) (fun z : R => scal (U ^ r) z) _ (locally N0)); [exact W0|]. apply (filterlim_scal_r (K := R_AbsRing) (V := R_NormedModule)). }
  rewrite (whole_unique r U N1 (mass r U) W1 (mass_whole r U HU)) in *. pose proof (mass_pos r U) as P1. split; [now apply Rdiv_lt_0_compat|].
  apply (Rmult_le_reg_r N0); [exact P|]. unfold Rdiv. rewrite Rmult_assoc, Rinv_l by lra. lra.
Qed.
Lemma mean_below U M : 0 < U -> moment 1 m s U M -> 0 < M <= U.
Proof. intros HU H. apply moment_below in H; [|exact HU]. rewrite pow_1 in H. exact H. Qed.
Lemma mean_above U M : 0 < U -> moment_above 1 m s U M -> U <= M.
Proof.
  intros HU (N0 & N1 & W0 & W1 & P & ->). assert (U * N0 <= N1).
  { apply (filterlim_le (F := Rbar_locally p_infty) (fun x1 => scal U (RInt (fun x => x ^ 0 * density m s x) U x1)) (fun x1 => RInt (fun x => x ^ 1 * density m s x) U x1) (U * N0) N1).
    - exists U. intros x Hx. assert (Px : 0 < x) by lra. assert (E : RInt (fun y => scal U (y ^ 0 * density m s y)) U x = U * RInt (fun x => x ^ 0 * density m s x) U x) by (apply (RInt_scal (V := R_CompleteNormedModule)), density_int; assumption). change (U * RInt (fun x => x ^ 0 * density m s x) U x <= RInt (fun x0 => x0 ^ 1 * density m s x0) U x). rewrite <- E.
      apply RInt_le; [lra|apply (ex_RInt_scal (V := R_NormedModule)), density_int; assumption|now apply density_int|].
      intros y Hy. unfold scal; cbn; unfold mult; cbn. pose proof (density_pos y ltac:(lra)). nra.
    - apply (filterlim_comp _ _ _ (fun x1 => RInt (fun x => x ^ 0 * density m s x) U x1) (fun z : R => scal U z) _ (locally N0)); [exact W0|]. apply (filterlim_scal_r (K := R_AbsRing) (V := R_NormedModule)).
    - exact W1. }
  apply (Rmult_le_reg_r N0); [exact P|]. unfold Rdiv. rewrite Rmult_assoc, Rinv_l by lra. lra.
Qed.
End Moments.
