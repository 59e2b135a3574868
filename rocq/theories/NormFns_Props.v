(** The functions of the normal distribution: C118. *)
From Coq Require Import Reals QArith Qreals Lra Lia Psatz.
From Coquelicot Require Import Coquelicot.
From Verif Require Import Common Arith Double_Model RealArith MathFns_RealSpec MathFns_Gauss MathFns_Model MathFns_Props LogNormal_Gauss NormFns_Spec NormFns_Model NormFns_Pi.
Local Open Scope R_scope.

Definition c : R := IZR 6369051672525773 / IZR (2 ^ 53).
Definition k : R := IZR 7186705221432913 / IZR (2 ^ 54).
Lemma c_val : sqrt_half reals = RFin c.
Proof. unfold sqrt_half, c. cbn [ndiv reals of_int]. destruct (Req_EM_T _ _) as [E|_]; [exfalso; apply eq_IZR in E; lia|reflexivity]. Qed.
Lemma half_val : half reals = RFin (1 / 2).
Proof. unfold half. cbn [ndiv reals of_int]. destruct (Req_EM_T _ _) as [E|_]; [exfalso; lra|reflexivity]. Qed.
Lemma cdf_val x : unitNormalCDF reals real_erf (RFin x) = RFin (1 / 2 * (1 + Rerf (c * x))).
Proof. unfold unitNormalCDF. rewrite c_val, half_val. reflexivity. Qed.
Lemma abs_val x : dabs reals (RFin x) = RFin (Rabs x).
Proof. unfold dabs. cbn [nlt reals rcmp of_int]. destruct (Rlt_dec x 0) as [L|L]; cbn [nopp reals]; [rewrite Rabs_left by lra|rewrite Rabs_pos_eq by lra]; reflexivity. Qed.
Lemma beyond_val x : probAbsNormal reals real_erf (RFin x) = RFin (1 - Rerf (c * Rabs x)).
Proof. unfold probAbsNormal. rewrite c_val, abs_val. reflexivity. Qed.
Lemma pdf_val x : unitNormalPDF reals rexp (RFin x) = RFin (k * exp (- (1 / 2) * x * x)).
Proof. unfold unitNormalPDF, k. rewrite half_val. cbn [ndiv reals of_int]. destruct (Req_EM_T _ _) as [E|_]; [exfalso; apply eq_IZR in E; lia|]. reflexivity. Qed.

(** The true functions in terms of erf *)
Lemma root_pi : 0 < sqrt PI.
Proof. apply sqrt_lt_R0, PI_RGT_0. Qed.
Lemma root_2 : 0 < sqrt 2.
Proof. apply sqrt_lt_R0. lra. Qed.
Lemma root_2pi : sqrt (2 * PI) = sqrt 2 * sqrt PI.
Proof. apply sqrt_mult; [lra|apply Rlt_le, PI_RGT_0]. Qed.
Definition phi (x : R) : R := 1 / 2 * Rerf (x / sqrt 2).
Lemma phi_deriv (x : R) : is_derive phi x (bell_curve x).
Proof.
  assert (D : is_derive Rerf (x / sqrt 2) (2 / sqrt PI * exp (- (x / sqrt 2 * (x / sqrt 2))))) by (apply is_derive_Reals, Rerf_deriv).
  assert (L : is_derive (fun x => x / sqrt 2) x (/ sqrt 2)). { auto_derive; [exact I|]. ring. }
  pose proof (is_derive_comp Rerf (fun x => x / sqrt 2) x _ _ D L) as C. pose proof (is_derive_scal _ _ (1 / 2) _ C) as C2.
  unfold phi. replace (bell_curve x) with (1 / 2 * (scal (/ sqrt 2) (2 / sqrt PI * exp (- (x / sqrt 2 * (x / sqrt 2)))))); [exact C2|].
  unfold scal. cbn. unfold mult. cbn. unfold bell_curve. rewrite root_2pi. pose proof root_pi. pose proof root_2.
  replace (- (x / sqrt 2 * (x / sqrt 2))) with (- x ^ 2 / 2); [field; lra|]. assert (S2 : sqrt 2 * sqrt 2 = 2) by (apply sqrt_sqrt; lra).
  replace (- (x / sqrt 2 * (x / sqrt 2))) with (- (x * x) / (sqrt 2 * sqrt 2)) by (field; lra). rewrite S2. field.
Qed.
Lemma curve_cont x : continuous bell_curve x.
Proof. apply (ex_derive_continuous bell_curve). unfold bell_curve. auto_derive. exact I. Qed.
Lemma curve_int a b : RInt bell_curve a b = phi b - phi a.
Proof. apply is_RInt_unique. apply (is_RInt_derive (V := R_CompleteNormedModule) phi bell_curve); intros; [apply phi_deriv|apply curve_cont]. Qed.
Lemma phi_minus : filterlim phi (Rbar_locally m_infty) (locally (- (1 / 2))).
Proof.
  apply filterlim_locally. intros eps. destruct (Rerf_minus eps (cond_pos eps)) as (M & H). exists (M * sqrt 2). intros x Hx. unfold ball. cbn. unfold AbsRing_ball, abs, minus, plus, opp. cbn.
  pose proof root_2. assert (X : x / sqrt 2 < M) by (apply (Rmult_lt_reg_r (sqrt 2)); [lra|]; unfold Rdiv; rewrite Rmult_assoc, Rinv_l by lra; lra).
  specialize (H _ X). unfold phi. replace (1 / 2 * Rerf (x / sqrt 2) + - - (1 / 2)) with (1 / 2 * (Rerf (x / sqrt 2) - -1)) by ring. rewrite Rabs_mult, (Rabs_pos_eq (1 / 2)) by lra. pose proof (cond_pos eps). lra.
Qed.
Lemma below_val x p : probability_below x p <-> p = 1 / 2 * (1 + Rerf (x / sqrt 2)).
Proof.
  assert (T : probability_below x (1 / 2 * (1 + Rerf (x / sqrt 2)))).
  { unfold probability_below. apply (filterlim_ext (fun a => phi x - phi a)); [intros a; symmetry; apply curve_int|].
    replace (1 / 2 * (1 + Rerf (x / sqrt 2))) with (phi x - - (1 / 2)) by (unfold phi; ring).
    apply filterlim_locally. intros eps. pose proof (proj1 (filterlim_locally phi (- (1 / 2))) phi_minus eps) as (M & H). exists M. intros a Ha. specialize (H a Ha). unfold ball in *. cbn in *. unfold AbsRing_ball, abs, minus, plus, opp in *. cbn in *.
    replace (phi x - phi a + - (phi x - - (1 / 2))) with (- (phi a + - - (1 / 2))) by ring. now rewrite Rabs_Ropp. }
  split; [|intros ->; exact T]. intros P. exact (filterlim_locally_unique (F := Rbar_locally m_infty) _ _ _ P T).
Qed.

(** c and 1/sqrt 2, k and 1/sqrt(2 pi) *)
Definition eps54 : R := / IZR (2 ^ 54).
Lemma c_close : Rabs (c - / sqrt 2) <= eps54.
Proof.
  pose proof root_2 as P. assert (S2 : sqrt 2 * sqrt 2 = 2) by (apply sqrt_sqrt; lra). set (q := / sqrt 2). assert (Q : q * q = 1 / 2) by (unfold q; rewrite <- Rinv_mult, S2; lra).
  assert (Q0 : 0 < q) by (apply Rinv_0_lt_compat; exact P). unfold c, eps54. change (2 ^ 53)%Z with 9007199254740992%Z. change (2 ^ 54)%Z with 18014398509481984%Z.
  apply Rabs_le. split; nra.
Qed.
Lemma k_close : Rabs (k * sqrt (2 * PI) - 1) <= / IZR (10 ^ 15).
Proof.
  pose proof PI_between as (L & U). unfold Q2R in L, U. cbn [Qnum Qden] in L, U. pose proof PI_RGT_0. set (r := sqrt (2 * PI)).
  assert (R2 : r * r = 2 * PI) by (apply sqrt_sqrt; lra). assert (R0 : 0 < r) by (apply sqrt_lt_R0; lra).
  unfold k. change (2 ^ 54)%Z with 18014398509481984%Z. change (10 ^ 15)%Z with 1000000000000000%Z. set (kk := 7186705221432913 / 18014398509481984).
  assert (K0 : 0 < kk) by (unfold kk; lra). assert (Y : (kk * r) * (kk * r) = kk * kk * 2 * PI) by (transitivity (kk * kk * (r * r)); [ring|rewrite R2; ring]).
  assert (Y0 : 0 < kk * r) by (apply Rmult_lt_0_compat; lra). set (y := kk * r) in *.
  assert (B : - / 1000000000000000 <= y * y - 1 <= / 1000000000000000) by (rewrite Y; unfold kk; split; lra).
  apply Rabs_le. split; nra.
Qed.
Lemma tail_bound t : 0 <= t -> t * exp (- (t * t)) <= 1 / 2.
Proof.
  intros T. rewrite exp_Ropp. pose proof (exp_ineq1_le (t * t)) as H. pose proof (exp_pos (t * t)) as P. set (E := exp (t * t)) in *.
  apply (Rmult_le_reg_r E); [exact P|]. replace (t * / E * E) with t by (field; lra). pose proof (Rle_0_sqr (t - 1)) as S. unfold Rsqr in S. lra.
Qed.
Lemma rate_bound : 2 / sqrt PI <= 12 / 10.
Proof. pose proof root_pi as P. assert (S : sqrt PI * sqrt PI = PI) by (apply sqrt_sqrt, Rlt_le, PI_RGT_0). pose proof PI_between as (L & _). unfold Q2R in L. cbn [Qnum Qden] in L. apply (Rmult_le_reg_r (sqrt PI)); [exact P|]. unfold Rdiv at 1. rewrite Rmult_assoc, Rinv_l by lra. nra. Qed.

Lemma erf_mvt a b : a < b -> exists z, a < z < b /\ Rerf b - Rerf a = 2 / sqrt PI * exp (- (z * z)) * (b - a).
Proof.
  intros H. destruct (MVT_cor2 Rerf (fun z => 2 / sqrt PI * exp (- (z * z))) a b H) as (z & E & B); [intros; apply Rerf_deriv|]. exists z. split; [exact B|]. exact E.
Qed.
(** erf at almost the same multiples of a positive x *)
Lemma erf_close x : 0 < x -> Rabs (Rerf (c * x) - Rerf (x / sqrt 2)) <= eps54.
Proof.
  intros X. pose proof c_close as C. pose proof rate_bound as RB. pose proof root_pi as RP. set (q := / sqrt 2) in *. change (x / sqrt 2) with (x * q). rewrite (Rmult_comm c).
  assert (RP' : 0 < 2 / sqrt PI) by (apply Rdiv_lt_0_compat; lra).
  assert (C0 : 7 / 10 < c) by (unfold c; change (2 ^ 53)%Z with 9007199254740992%Z; lra).
  assert (E0 : 0 < eps54 <= / 1000000) by (unfold eps54; change (2 ^ 54)%Z with 18014398509481984%Z; lra).
  assert (Q0 : 69 / 100 < q) by (destruct (Rcase_abs (c - q)); [lra|]; unfold Rabs in C; destruct (Rcase_abs (c - q)); lra).
  assert (K : forall a b, 69 / 100 < a -> a < b -> b - a <= eps54 -> 0 <= Rerf (x * b) - Rerf (x * a) <= eps54).
  { intros a b A B D. destruct (erf_mvt (x * a) (x * b)) as (z & Z & ->); [apply Rmult_lt_compat_l; lra|].
    assert (Z0 : 69 / 100 * x < z) by nra. pose proof (tail_bound z ltac:(nra)) as T. pose proof (exp_pos (- (z * z))) as P. set (e := exp (- (z * z))) in *.
    replace (2 / sqrt PI * e * (x * b - x * a)) with (2 / sqrt PI * ((e * x) * (b - a))) by ring.
    assert (M1 : e * x <= 50 / 69). { assert (e * (69 / 100 * x) <= e * z) by (apply Rmult_le_compat_l; lra). lra. }
    assert (M0 : 0 < e * x) by (apply Rmult_lt_0_compat; lra). assert (M2 : 0 <= e * x * (b - a) <= 50 / 69 * eps54).
    { split; [apply Rmult_le_pos; lra|]. apply Rmult_le_compat; lra. }
    split; [apply Rmult_le_pos; lra|]. apply Rle_trans with (12 / 10 * (50 / 69 * eps54)); [apply Rmult_le_compat; lra|]. lra. }
  destruct (Rtotal_order c q) as [L|[L|L]].
  - assert (q - c <= eps54) by (rewrite Rabs_left in C by lra; lra). specialize (K c q ltac:(lra) L ltac:(lra)). rewrite Rabs_left1 by lra. lra.
  - rewrite L. replace (_ - _) with 0 by ring. rewrite Rabs_R0. lra.
  - assert (c - q <= eps54) by (rewrite Rabs_pos_eq in C by lra; lra). specialize (K q c Q0 L ltac:(lra)). rewrite Rabs_pos_eq by lra. lra.
Qed.
Lemma erf_close_all x : Rabs (Rerf (c * x) - Rerf (x / sqrt 2)) <= eps54.
Proof.
  destruct (Rtotal_order x 0) as [L|[L|L]].
  - pose proof (erf_close (- x) ltac:(lra)) as H. replace (c * - x) with (- (c * x)) in H by ring. replace (- x / sqrt 2) with (- (x / sqrt 2)) in H by (unfold Rdiv; ring). rewrite !Rerf_odd in H.
    replace (- Rerf (c * x) - - Rerf (x / sqrt 2)) with (- (Rerf (c * x) - Rerf (x / sqrt 2))) in H by ring. now rewrite Rabs_Ropp in H.
  - rewrite L. unfold Rdiv. rewrite Rmult_0_r, Rmult_0_l. replace (_ - _) with 0 by ring. rewrite Rabs_R0. unfold eps54. apply Rlt_le, Rinv_0_lt_compat, IZR_lt. lia.
  - now apply erf_close.
Qed.

(** unitNormalCDF, without rounding: within 2^-55 of the probability of a value below x, a
    probability itself. *)
Theorem C118_cdf : forall x, exists v p, unitNormalCDF reals real_erf (RFin x) = RFin v /\ probability_below x p /\
  Rabs (v - p) <= / IZR (2 ^ 55) /\ 0 < v < 1.
Proof.
  intros x. exists (1 / 2 * (1 + Rerf (c * x))), (1 / 2 * (1 + Rerf (x / sqrt 2))). split; [apply cdf_val|]. split; [now apply below_val|]. split.
  - replace (_ - _) with (1 / 2 * (Rerf (c * x) - Rerf (x / sqrt 2))) by ring. rewrite Rabs_mult, (Rabs_pos_eq (1 / 2)) by lra. pose proof (erf_close_all x) as H. unfold eps54 in H. change (2 ^ 54)%Z with 18014398509481984%Z in H. change (2 ^ 55)%Z with 36028797018963968%Z. lra.
  - pose proof (Rerf_lt_1 (c * x)). pose proof (Rerf_gt (c * x)). lra.
Qed.
Print Assumptions C118_cdf.

(** It grows strictly, and the values for x and -x add up to 1. *)
Theorem C118_cdf_shape : forall x y v u, unitNormalCDF reals real_erf (RFin x) = RFin v ->
  (unitNormalCDF reals real_erf (RFin y) = RFin u -> x < y -> v < u) /\ unitNormalCDF reals real_erf (RFin (- x)) = RFin (1 - v).
Proof.
  intros x y v u V. rewrite cdf_val in V. injection V as <-. split.
  - intros U L. rewrite cdf_val in U. injection U as <-. assert (C0 : 0 < c) by (unfold c; change (2 ^ 53)%Z with 9007199254740992%Z; lra).
    destruct (erf_mvt (c * x) (c * y)) as (z & Z & E); [apply Rmult_lt_compat_l; lra|]. assert (0 < 2 / sqrt PI * exp (- (z * z)) * (c * y - c * x)); [|lra].
    apply Rmult_lt_0_compat; [apply Rmult_lt_0_compat; [apply Rdiv_lt_0_compat; [lra|apply root_pi]|apply exp_pos]|nra].
  - rewrite cdf_val. f_equal. replace (c * - x) with (- (c * x)) by ring. rewrite Rerf_odd. field.
Qed.
Print Assumptions C118_cdf_shape.

(** probAbsNormal for x not negative: within 2^-54 of the probability that the absolute value
    is above x. *)
Theorem C118_beyond_partial : forall x, 0 <= x -> exists v, probAbsNormal reals real_erf (RFin x) = RFin v /\
  Rabs (v - probability_beyond x) <= / IZR (2 ^ 54) /\ 0 < v <= 1.
Proof.
  intros x X. exists (1 - Rerf (c * x)). split; [rewrite beyond_val, Rabs_pos_eq by lra; reflexivity|]. split.
  - unfold probability_beyond. rewrite curve_int. unfold phi. replace (- x / sqrt 2) with (- (x / sqrt 2)) by (unfold Rdiv; ring). rewrite Rerf_odd.
    replace (_ - _) with (- (Rerf (c * x) - Rerf (x / sqrt 2))) by field. rewrite Rabs_Ropp. apply erf_close_all.
  - pose proof (Rerf_lt_1 (c * x)). assert (C0 : 0 < c) by (unfold c; change (2 ^ 53)%Z with 9007199254740992%Z; lra). pose proof (Rerf_nonneg (c * x) ltac:(nra)). lra.
Qed.
Print Assumptions C118_beyond_partial.

(** False for negative x, which every absolute value is above: the answer is not 1 but the
    one for -x. *)
Theorem C118_beyond_refuted : forall x, x < 0 -> exists v, probAbsNormal reals real_erf (RFin x) = RFin v /\
  probAbsNormal reals real_erf (RFin (- x)) = RFin v /\ v < 1.
Proof.
  intros x X. exists (1 - Rerf (c * - x)). split; [rewrite beyond_val, Rabs_left by lra; reflexivity|]. split; [rewrite beyond_val, Rabs_pos_eq by lra; reflexivity|].
  assert (C0 : 0 < c) by (unfold c; change (2 ^ 53)%Z with 9007199254740992%Z; lra). destruct (erf_mvt 0 (c * - x)) as (z & Z & E); [nra|]. rewrite Rerf_0 in E.
  assert (0 < 2 / sqrt PI * exp (- (z * z)) * (c * - x - 0)); [|lra]. apply Rmult_lt_0_compat; [apply Rmult_lt_0_compat; [apply Rdiv_lt_0_compat; [lra|apply root_pi]|apply exp_pos]|nra].
Qed.
Print Assumptions C118_beyond_refuted.

(** unitNormalPDF: the density, up to 10^-15 of it; and the derivative of the probability. *)
Theorem C118_pdf : forall x, exists v, unitNormalPDF reals rexp (RFin x) = RFin v /\ Rabs (v - bell_curve x) <= bell_curve x / IZR (10 ^ 15) /\
  forall P : R -> R, (forall y, probability_below y (P y)) -> is_derive P x (bell_curve x).
Proof.
  intros x. exists (k * exp (- (1 / 2) * x * x)). split; [apply pdf_val|]. split.
  - unfold bell_curve. replace (- (1 / 2) * x * x) with (- x ^ 2 / 2) by field. pose proof (exp_pos (- x ^ 2 / 2)) as E. set (e := exp _) in *. pose proof k_close as K. set (r := sqrt (2 * PI)) in *.
    assert (R0 : 0 < r) by (apply sqrt_lt_R0; pose proof PI_RGT_0; lra). replace (k * e - e / r) with (e / r * (k * r - 1)) by (field; lra).
    rewrite Rabs_mult, Rabs_pos_eq by (apply Rlt_le, Rdiv_lt_0_compat; lra). unfold Rdiv at 2. apply Rmult_le_compat_l; [apply Rlt_le, Rdiv_lt_0_compat; lra|exact K].
  - intros P HP. apply (is_derive_ext (fun y => 1 / 2 + phi y)). { intros y. assert (V : (1 / 2 + phi y)%R = P y); [|exact V]. rewrite (proj1 (below_val y (P y)) (HP y)). unfold phi. field. }
    replace (bell_curve x) with (plus 0 (bell_curve x)) by (unfold plus; cbn; ring). apply (is_derive_plus (K := R_AbsRing) (V := R_NormedModule) (fun _ => 1 / 2) phi); [apply (is_derive_const (K := R_AbsRing) (V := R_NormedModule))|apply phi_deriv].
Qed.
Print Assumptions C118_pdf.

(** inverseUnitNormalCDF is the inverse of unitNormalCDF, and of the probability, above 1/2. *)
Lemma erf_near x a b : 69 / 100 < a -> 69 / 100 < b -> Rabs (Rerf (x * a) - Rerf (x * b)) <= Rabs (a - b).
Proof.
  assert (W : forall x a b, 0 < x -> 69 / 100 < a -> a < b -> 0 <= Rerf (x * b) - Rerf (x * a) <= b - a).
  { clear. intros x a b X A B. pose proof rate_bound as RB. pose proof root_pi as RP. assert (RP' : 0 < 2 / sqrt PI) by (apply Rdiv_lt_0_compat; lra).
    destruct (erf_mvt (x * a) (x * b)) as (z & Z & ->); [apply Rmult_lt_compat_l; lra|].
    assert (Z0 : 69 / 100 * x < z) by nra. pose proof (tail_bound z ltac:(nra)) as T. pose proof (exp_pos (- (z * z))) as P. set (e := exp (- (z * z))) in *.
    replace (2 / sqrt PI * e * (x * b - x * a)) with (2 / sqrt PI * (e * x) * (b - a)) by ring.
    assert (M1 : e * x <= 50 / 69). { assert (e * (69 / 100 * x) <= e * z) by (apply Rmult_le_compat_l; lra). lra. }
    assert (M0 : 0 < e * x) by (apply Rmult_lt_0_compat; lra). assert (M2 : 0 <= 2 / sqrt PI * (e * x) <= 1).
    { split; [apply Rmult_le_pos; lra|]. apply Rle_trans with (12 / 10 * (50 / 69)); [apply Rmult_le_compat; lra|lra]. }
    split; [apply Rmult_le_pos; lra|]. rewrite <- (Rmult_1_l (b - a)) at 2. apply Rmult_le_compat_r; lra. }
  assert (V : forall x a b, 0 < x -> 69 / 100 < a -> 69 / 100 < b -> Rabs (Rerf (x * a) - Rerf (x * b)) <= Rabs (a - b)).
  { clear - W. intros x a b X A B. destruct (Rtotal_order a b) as [L|[L|L]].
    - specialize (W x a b X A L). rewrite (Rabs_left1 (_ - _)), Rabs_left by lra. lra.
    - rewrite L. replace (Rerf (x * b) - _) with 0 by ring. replace (b - b) with 0 by ring. lra.
    - specialize (W x b a X B L). rewrite !Rabs_pos_eq by lra. lra. }
  intros A B. destruct (Rtotal_order x 0) as [L|[L|L]]; [| |now apply V].
  - specialize (V (- x) a b ltac:(lra) A B). rewrite !Ropp_mult_distr_l_reverse, !Rerf_odd in V. replace (- Rerf (x * a) - - Rerf (x * b)) with (- (Rerf (x * a) - Rerf (x * b))) in V by ring. now rewrite Rabs_Ropp in V.
  - rewrite L, !Rmult_0_l. replace (Rerf 0 - _) with 0 by ring. rewrite Rabs_R0. apply Rabs_pos.
Qed.
Theorem C118_quantile : forall p, / 2 < p <= 1 - / 2 ^ 54 -> exists fuel z v q,
  inverseUnitNormalCDF reals rsqrt rlog rexp real_erf fuel (RFin p) = Ok (RFin z) /\
  unitNormalCDF reals real_erf (RFin z) = RFin v /\ Rabs (v - p) <= 2 / 10 ^ 14 /\ probability_below z q /\ Rabs (q - p) <= 2 / 10 ^ 14.
Proof.
  intros p HP. destruct (C77_quantile p HP) as (fuel & z & E & B). exists fuel, z, (1 / 2 * (1 + Rerf (c * z))), (1 / 2 * (1 + Rerf (z / sqrt 2))).
  set (w := / (IZR 6369051672525773 / IZR (2 ^ 52))). change (z / (IZR 6369051672525773 / IZR (2 ^ 52))) with (z * w) in B.
  assert (WV : w = 4503599627370496 / 6369051672525773) by (unfold w; change (2 ^ 52)%Z with 4503599627370496%Z; field).
  assert (WC : Rabs (c - w) <= / 10 ^ 15). { rewrite WV. unfold c. change (2 ^ 53)%Z with 9007199254740992%Z. apply Rabs_le. lra. }
  assert (C0 : 69 / 100 < c) by (unfold c; change (2 ^ 53)%Z with 9007199254740992%Z; lra).
  assert (W0 : 69 / 100 < w) by (rewrite WV; lra).
  pose proof (erf_near z c w C0 W0) as N. assert (VP : Rabs (1 / 2 * (1 + Rerf (c * z)) - p) <= 1 / 10 ^ 14 + / 10 ^ 15).
  { rewrite (Rmult_comm c z). replace (1 / 2 * (1 + Rerf (z * c)) - p) with ((/ 2 * (1 + Rerf (z * w)) - p) + 1 / 2 * (Rerf (z * c) - Rerf (z * w))) by field.
    eapply Rle_trans; [apply Rabs_triang|]. rewrite (Rabs_mult (1 / 2)), (Rabs_pos_eq (1 / 2)) by lra. pose proof (Rabs_pos (Rerf (z * c) - Rerf (z * w))). lra. }
  split; [exact E|]. split; [apply cdf_val|]. split; [lra|]. split; [now apply below_val|].
  pose proof (erf_close_all z) as C. unfold eps54 in C. change (2 ^ 54)%Z with 18014398509481984%Z in C.
  replace (1 / 2 * (1 + Rerf (z / sqrt 2)) - p) with ((1 / 2 * (1 + Rerf (c * z)) - p) + - (1 / 2 * (Rerf (c * z) - Rerf (z / sqrt 2)))) by field.
  eapply Rle_trans; [apply Rabs_triang|]. rewrite Rabs_Ropp, (Rabs_mult (1 / 2)), (Rabs_pos_eq (1 / 2)) by lra. lra.
Qed.
Print Assumptions C118_quantile.
Example C118_quantile_case : / 2 < 975 / 1000 <= 1 - / 2 ^ 54.
Proof. lra. Qed.

Example C118_example : exists p, probability_below 0 p /\ unitNormalCDF reals real_erf (RFin 0) = RFin (1 / 2) /\ p = 1 / 2 /\
  probAbsNormal reals real_erf (RFin 0) = RFin 1 /\ probability_beyond 0 = 1.
Proof.
  exists (1 / 2). assert (Z : Rerf (0 / sqrt 2) = 0) by (unfold Rdiv; rewrite Rmult_0_l; exact Rerf_0). split; [apply below_val; rewrite Z; field|]. split; [rewrite cdf_val, Rmult_0_r, Rerf_0; f_equal; field|]. split; [reflexivity|].
  split; [rewrite beyond_val, Rabs_R0, Rmult_0_r, Rerf_0; f_equal; field|]. unfold probability_beyond. rewrite Ropp_0, RInt_point. unfold zero. cbn. ring.
Qed.
