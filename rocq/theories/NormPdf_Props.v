(** The density of the normal distribution in doubles: C118. *)
From Coq Require Import Reals Lra Lia Psatz ZArith.
From Flocq Require Import Core BinarySingleNaN.
From Verif Require Import Common Double64 Arith Double_Model MathFns_RealSpec MathFns_Gauss LogNormal_Gauss MathFns_Erf StatsDev_Spec StatsDev_Proofs NormFns_Spec NormPdf_Spec NormFns_Model NormFns_Props NormD_Props.
Local Open Scope R_scope.

Lemma prod_le z t q s : - t <= z <= t -> 0 <= q <= s -> 0 <= t -> - (t * s) <= z * q <= t * s.
Proof. intros Z Q T. split; nra. Qed.
Lemma k_double : let K := @ndiv ieee (of_int 7186705221432913) (of_int (2 ^ 54)) in B2R K = k /\ is_finite K = true.
Proof.
  cbv zeta. split; [|vm_compute; reflexivity]. rewrite <- SF2R_B2SF. replace (B2SF _) with (SpecFloat.S754_finite false 7186705221432913 (-54)) by (vm_compute; reflexivity). reflexivity.
Qed.
Lemma exp_mvt a b : a < b -> exists z, a < z < b /\ exp b - exp a = exp z * (b - a).
Proof. intros H. destruct (MVT_cor2 exp exp a b H) as (z & E & B); [intros; apply derivable_pt_lim_exp|]. exists z. auto. Qed.
(** exp at numbers that are relatively close *)
Lemma exp_close w y d : 0 <= d <= / 100 -> 0 <= w -> y <= 0 -> Rabs (y + w) <= d * w \/ Rabs (y + w) <= d -> Rabs (exp y - exp (- w)) <= 11 / 10 * d.
Proof.
  intros D W Y H. assert (ONE : forall z, z <= 0 -> exp z <= 1) by (intros z Z; rewrite <- exp_0; destruct (Req_dec z 0) as [->|N]; [lra|]; apply Rlt_le, exp_increasing; lra).
  assert (T : forall z, 0 <= z -> z * exp (- z) <= 1). { intros z Z. rewrite exp_Ropp. pose proof (exp_ineq1_le z). pose proof (exp_pos z). apply (Rmult_le_reg_r (exp z)); [lra|]. replace (z * / exp z * exp z) with z by (field; lra). lra. }
  assert (M : forall z, z <= 0 -> (y < z < - w \/ - w < z < y) -> exp z * Rabs (y + w) <= 11 / 10 * d).
  { intros z Z B. pose proof (exp_pos z) as P. pose proof (ONE z Z) as O. pose proof (Rabs_pos (y + w)) as RA. destruct H as [H|H].
    - assert (ZW : (1 - d) * w <= - z). { apply Rabs_le_inv in H. destruct B; nra. }
      pose proof (T (- z) ltac:(lra)) as TT. rewrite Ropp_involutive in TT. assert (exp z * ((1 - d) * w) <= exp z * - z) by (apply Rmult_le_compat_l; lra).
      assert (EW : exp z * w <= 11 / 10). { apply (Rmult_le_reg_r (1 - d)); [lra|]. nra. } apply Rle_trans with (exp z * (d * w)); [apply Rmult_le_compat_l; lra|]. replace (exp z * (d * w)) with (d * (exp z * w)) by ring. nra.
    - nra. }
  destruct (Rtotal_order y (- w)) as [L|[L|L]].
  - destruct (exp_mvt y (- w) L) as (z & B & E). replace (exp y - exp (- w)) with (- (exp z * (- w - y))) by lra. rewrite Rabs_Ropp, Rabs_mult, (Rabs_pos_eq (exp z)) by (apply Rlt_le, exp_pos). replace (Rabs (- w - y)) with (Rabs (y + w)) by (rewrite <- (Rabs_Ropp (- w - y)); f_equal; ring). apply M; [lra|left; exact B].
  - rewrite L, Rminus_eq_0, Rabs_R0. lra.
  - destruct (exp_mvt (- w) y L) as (z & B & E). rewrite E, Rabs_mult, (Rabs_pos_eq (exp z)) by (apply Rlt_le, exp_pos). replace (y - - w) with (y + w) by ring. apply M; [lra|right; exact B].
Qed.
(** unitNormalPDF in doubles, for arguments whose square does not overflow and an exp that is
    off by at most e: off by at most e/2 and 2^-50. *)
Theorem C118_pdf_double : forall e dexp x, 0 <= e <= / 4 -> exp_within e dexp -> is_finite x = true -> Rabs (B2R x) <= bpow radix2 500 ->
  is_finite (unitNormalPDF ieee dexp x) = true /\ Rabs (B2R (unitNormalPDF ieee dexp x) - bell_curve (B2R x)) <= e / 2 + / IZR (2 ^ 50).
Proof.
  intros e dexp x HE H F XB. pose proof ulp1_pos as UP. pose proof ulp1_small as US. destruct half_double as (EH & FH). destruct k_double as (EK & FK).
  unfold unitNormalPDF. change (@nmul ieee) with dmul. change (@nopp ieee) with (@Bopp 53 1024). set (K := @ndiv ieee _ _) in *. set (a := B2R x) in *.
  assert (EO : B2R (Bopp (half ieee)) = - / 2) by now rewrite B2R_Bopp, EH. assert (FO : is_finite (Bopp (half ieee)) = true) by now rewrite is_finite_Bopp.
  assert (X1 : Rabs (- / 2 * a) = / 2 * Rabs a) by (rewrite Rabs_mult, Rabs_left by lra; lra). pose proof (Rabs_pos a) as AP.
  destruct (dmul_spec _ x 500 FO F ltac:(lia)) as (E1 & F1). { rewrite EO. fold a. rewrite X1. lra. } rewrite EO in E1. fold a in E1. set (y1 := dmul (Bopp (half ieee)) x) in *.
  assert (Y1 : Rabs (B2R y1 + / 2 * a) <= ulp1 * (/ 2 * Rabs a) \/ Rabs a < 1 /\ Rabs (B2R y1 + / 2 * a) <= ulp1 * / 2).
  { rewrite E1. replace (rnd (- / 2 * a) + / 2 * a) with (rnd (- / 2 * a) - (- / 2 * a)) by ring. destruct (Rlt_le_dec (Rabs a) 1) as [L|L]; [right|left].
    - split; [exact L|]. apply rnd_err; [lra|]. change (/ 2) with (bpow radix2 (-1)). apply bpow_le. lia.
    - apply rnd_err; [lra|]. apply Rle_trans with (/ 2); [change (/ 2) with (bpow radix2 (-1)); apply bpow_le; lia|lra]. }
  set (w := / 2 * (a * a)). assert (W0 : 0 <= w) by (unfold w; pose proof (Rle_0_sqr a) as S; unfold Rsqr in S; lra). assert (AA : Rabs a * Rabs a = a * a) by (rewrite <- Rabs_mult, Rabs_pos_eq; [reflexivity|unfold w in W0; lra]).
  assert (P1 : Rabs (B2R y1 * a + w) = Rabs (B2R y1 + / 2 * a) * Rabs a) by (rewrite <- Rabs_mult; f_equal; unfold w; ring).
  assert (NP : B2R y1 * a <= 0). { rewrite E1. destruct (Rle_dec 0 a) as [L|L]; [assert (rnd (- / 2 * a) <= 0) by (rewrite <- rnd_0; apply rnd_le; lra)|assert (0 <= rnd (- / 2 * a)) by (rewrite <- rnd_0; apply rnd_le; lra)]; nra. }
  assert (Q : (1 <= Rabs a /\ Rabs (B2R y1 * a + w) <= ulp1 * w) \/ (Rabs a <= 1 /\ Rabs (B2R y1 * a + w) <= ulp1)).
  { rewrite P1. destruct (Rle_lt_dec 1 (Rabs a)) as [L|L].
    - left. split; [exact L|]. destruct Y1 as [Y1|(Y1 & _)]; [|lra]. apply Rle_trans with (ulp1 * (/ 2 * Rabs a) * Rabs a); [apply Rmult_le_compat_r; lra|]. unfold w. rewrite <- AA. lra.
    - right. split; [lra|]. destruct Y1 as [Y1|(_ & Y1)].
      + apply Rle_trans with (ulp1 * (/ 2 * Rabs a) * Rabs a); [apply Rmult_le_compat_r; lra|]. assert (AQ : / 2 * Rabs a * Rabs a <= 1) by nra. replace (ulp1 * (/ 2 * Rabs a) * Rabs a) with (ulp1 * (/ 2 * Rabs a * Rabs a)) by ring. nra.
      + apply Rle_trans with (ulp1 * / 2 * Rabs a); [apply Rmult_le_compat_r; lra|]. nra. }
  assert (W1 : 1 <= Rabs a -> / 2 <= w) by (intros L; unfold w; rewrite <- AA; nra). assert (W2 : Rabs a <= 1 -> w <= / 2) by (intros L; unfold w; rewrite <- AA; nra).
  assert (WB : w <= / 2 * bpow radix2 1000). { unfold w. rewrite <- AA. change 1000%Z with (500 + 500)%Z. rewrite bpow_plus. apply Rmult_le_compat_l; [lra|]. apply Rmult_le_compat; lra. }
  assert (BIG : 1 <= bpow radix2 1000) by (change 1 with (bpow radix2 0); apply bpow_le; lia).
  assert (PB : Rabs (B2R y1 * a) <= bpow radix2 1000). { rewrite Rabs_left1 by exact NP. destruct Q as [(L & Q)|(L & Q)]; apply Rabs_le_inv in Q; [|specialize (W2 L)]; nra. }
  destruct (dmul_spec y1 x 1000 F1 F ltac:(lia) PB) as (E2 & F2). fold a in E2. set (y := dmul y1 x) in *.
  assert (YN : B2R y <= 0) by (rewrite E2, <- rnd_0; now apply rnd_le).
  assert (YC : Rabs (B2R y + w) <= 3 * ulp1 * w \/ Rabs (B2R y + w) <= 3 * ulp1).
  { assert (TR : Rabs (B2R y + w) <= Rabs (B2R y - B2R y1 * a) + Rabs (B2R y1 * a + w)) by (replace (B2R y + w) with ((B2R y - B2R y1 * a) + (B2R y1 * a + w)) by ring; apply Rabs_triang).
    destruct Q as [(L & Q)|(L & Q)].
    - left. specialize (W1 L). pose proof (rnd_err (B2R y1 * a) (2 * w)) as R. rewrite <- E2 in R. assert (Rabs (B2R y - B2R y1 * a) <= ulp1 * (2 * w)); [|lra]. apply R; [|apply tiny; lra]. rewrite Rabs_left1 by exact NP. apply Rabs_le_inv in Q. nra.
    - right. specialize (W2 L). pose proof (rnd_err (B2R y1 * a) 1) as R. rewrite <- E2 in R. assert (Rabs (B2R y - B2R y1 * a) <= ulp1 * 1); [|lra]. apply R; [|apply tiny; lra]. rewrite Rabs_left1 by exact NP. apply Rabs_le_inv in Q. lra. }
  destruct (H y F2 YN) as (FG & DG). set (g := dexp y) in *. pose proof (exp_close w (B2R y) (3 * ulp1) ltac:(lra) W0 YN YC) as EC.
  assert (EW : 0 < exp (- w) <= 1). { split; [apply exp_pos|]. rewrite <- exp_0. destruct (Req_dec w 0) as [->|N]; [rewrite Ropp_0; lra|]. apply Rlt_le, exp_increasing. lra. }
  assert (GC : Rabs (B2R g - exp (- w)) <= e + 34 / 10 * ulp1). { replace (B2R g - exp (- w)) with ((B2R g - exp (B2R y)) + (exp (B2R y) - exp (- w))) by ring. eapply Rle_trans; [apply Rabs_triang|]. lra. }
  assert (KR : 398 / 1000 < k < 399 / 1000) by (unfold k; change (2 ^ 54)%Z with 18014398509481984%Z; lra). apply Rabs_le_inv in GC.
  assert (B : Rabs (k * B2R g) <= 1) by (apply Rabs_le; nra). destruct (dmul_spec K g 0 FK FG ltac:(lia)) as (E3 & F3). { rewrite EK. change (bpow radix2 0) with 1. exact B. }
  rewrite EK in E3. split; [exact F3|]. pose proof (rnd_err _ _ B (tiny 1 ltac:(lra))) as R3. rewrite <- E3 in R3. apply Rabs_le_inv in R3.
  unfold bell_curve. replace (- a ^ 2 / 2) with (- w) by (unfold w; field). set (E := exp (- w)) in *. pose proof k_close as KC. set (r := sqrt (2 * PI)) in *. assert (R0 : 0 < r) by (apply sqrt_lt_R0; pose proof PI_RGT_0; lra).
  change (10 ^ 15)%Z with 1000000000000000%Z in KC. apply Rabs_le_inv in KC. assert (IR : r * / r = 1) by (field; lra). assert (IP : 0 < / r) by now apply Rinv_0_lt_compat. set (q := / r) in *. unfold Rdiv at 1. fold q. change (E / r) with (E * q).
  assert (KQ : k * r * q = k) by (rewrite Rmult_assoc, IR; ring). assert (Q1 : q <= 4 / 10) by nra. assert (Q2 : - (4 * ulp1) <= k - q <= 4 * ulp1).
  { assert (U4 : / 1000000000000000 * (4 / 10) <= 4 * ulp1) by (unfold ulp1; change (2 ^ 53)%Z with 9007199254740992%Z; lra). assert (KD : k - q = (k * r - 1) * q) by lra. rewrite KD. pose proof (prod_le (k * r - 1) (/ 1000000000000000) q (4 / 10) KC ltac:(lra) ltac:(lra)). lra. }
  assert (Q3 : - (4 * ulp1) <= (k - q) * E <= 4 * ulp1) by (pose proof (prod_le (k - q) (4 * ulp1) E 1 Q2 ltac:(lra) ltac:(lra)); lra). assert (Q4 : - (e / 2 + 2 * ulp1) <= (B2R g - E) * k <= e / 2 + 2 * ulp1) by (pose proof (prod_le (B2R g - E) (e + 34 / 10 * ulp1) k (4 / 10) GC ltac:(lra) ltac:(lra)); lra).
  assert (U : / IZR (2 ^ 50) = 8 * ulp1) by (unfold ulp1; change (2 ^ 50)%Z with 1125899906842624%Z; change (2 ^ 53)%Z with 9007199254740992%Z; lra).
  rewrite U. apply Rabs_le. lra.
Qed.
Print Assumptions C118_pdf_double.
(** There is such an exp: the real one, cut off to 53 binary places. *)
Example C118_pdf_double_case : exists ex, exp_within (/ IZR (2 ^ 53)) ex /\ 0 <= / IZR (2 ^ 53) <= / 4 /\ is_finite (of_Z 2) = true.
Proof.
  exists (fun y => binary_normalize 53 1024 prec_gt_0_53 prec_lt_emax_53 mode_NE (Zfloor (exp (B2R y) * bpow radix2 53)) (-53) false).
  split; [|split; [change (2 ^ 53)%Z with 9007199254740992%Z; lra|vm_compute; reflexivity]]. intros y F N.
  assert (L1 : exp (B2R y) <= 1). { rewrite <- exp_0. destruct (Req_dec (B2R y) 0) as [->|NE]; [lra|]. apply Rlt_le, exp_increasing. lra. }
  pose proof (exp_pos (B2R y)) as L2. set (r := exp (B2R y)) in *.
  set (m := Zfloor (r * bpow radix2 53)). assert (M : (0 <= m <= 2 ^ 53)%Z).
  { pose proof (bpow_gt_0 radix2 53) as P. split; [apply Zfloor_lub; nra|].
    pose proof (Zfloor_lb (r * bpow radix2 53)) as Q. fold m in Q. apply le_IZR. change (IZR (2 ^ 53)) with (bpow radix2 53). nra. }
  pose proof (binary_normalize_correct 53 1024 prec_gt_0_53 prec_lt_emax_53 mode_NE m (-53) false) as B. cbv zeta in B. unfold F2R in B. cbn [Fnum Fexp] in B.
  assert (G : generic_format radix2 fexp64 (IZR m * bpow radix2 (-53))).
  { destruct (Z.eq_dec m (2 ^ 53)) as [E|E]; [|apply fmt_F2R; lia]. rewrite E. change (IZR (2 ^ 53)) with (bpow radix2 53). rewrite <- bpow_plus. apply fmt_bpow. lia. }
  assert (K : Rabs (IZR m * bpow radix2 (-53)) <= bpow radix2 0).
  { rewrite Rabs_mult, <- abs_IZR, (Rabs_pos_eq (bpow _ _)) by apply bpow_ge_0. replace (bpow radix2 0) with (bpow radix2 53 * bpow radix2 (-53)) by (rewrite <- bpow_plus; reflexivity). apply Rmult_le_compat_r; [apply bpow_ge_0|]. change (bpow radix2 53) with (IZR (2 ^ 53)). apply IZR_le. lia. }
  rewrite (no_overflow _ 0) in B by (lia || exact K). destruct B as (B1 & B2 & _). split; [exact B2|]. rewrite B1. change (round radix2 fexp64 (round_mode mode_NE)) with rnd. rewrite rnd_id by exact G.
  pose proof (Zfloor_lb (r * bpow radix2 53)) as Q1. pose proof (Zfloor_ub (r * bpow radix2 53)) as Q2. fold m in Q1, Q2. change (bpow radix2 53) with (IZR (2 ^ 53)) in Q1, Q2. change (bpow radix2 (-53)) with (/ IZR (2 ^ 53)). change (2 ^ 53)%Z with 9007199254740992%Z in *. apply Rabs_le. lra.
Qed.
