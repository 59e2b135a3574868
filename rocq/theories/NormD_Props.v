(** The functions of the normal distribution in doubles: C118. *)
From Coq Require Import Reals Lra Lia Psatz ZArith.
From Flocq Require Import Core BinarySingleNaN.
From Verif Require Import Common Double64 Arith Double_Model MathFns_RealSpec MathFns_Gauss LogNormal_Gauss MathFns_Erf StatsDev_Spec StatsDev_Proofs NormFns_Spec NormD_Spec NormFns_Model NormFns_Props.
Local Open Scope R_scope.

Lemma c_double : B2R (sqrt_half ieee) = c /\ is_finite (sqrt_half ieee) = true.
Proof.
  split; [|vm_compute; reflexivity]. rewrite <- SF2R_B2SF. replace (B2SF (sqrt_half ieee)) with (SpecFloat.S754_finite false 6369051672525773 (-53)) by (vm_compute; reflexivity). reflexivity.
Qed.
Lemma half_double : B2R (half ieee) = / 2 /\ is_finite (half ieee) = true.
Proof.
  split; [|vm_compute; reflexivity]. rewrite <- SF2R_B2SF. replace (B2SF (half ieee)) with (SpecFloat.S754_finite false 4503599627370496 (-53)) by (vm_compute; reflexivity). unfold SF2R, F2R. cbn [Fnum Fexp cond_Zopp]. change (bpow radix2 (-53)) with (/ IZR (2 ^ 53)). change (2 ^ 53)%Z with 9007199254740992%Z. lra.
Qed.
Lemma c_range : 7 / 10 < c < 71 / 100.
Proof. unfold c. change (2 ^ 53)%Z with 9007199254740992%Z. lra. Qed.
(** The argument of erf does not overflow. *)
Lemma arg_double (x : double) : is_finite x = true -> B2R (dmul (sqrt_half ieee) x) = rnd (c * B2R x) /\ is_finite (dmul (sqrt_half ieee) x) = true.
Proof.
  intros F. destruct c_double as (E & FC). pose proof (Bmult_correct 53 1024 prec_gt_0_53 prec_lt_emax_53 mode_NE (sqrt_half ieee) x) as B. rewrite E in B.
  rewrite Rlt_bool_true in B. { destruct B as (B1 & B2 & _). rewrite F, FC in B2. split; assumption. }
  apply Rle_lt_trans with (Rabs (B2R x)); [|apply abs_B2R_lt_emax]. apply abs_round_le_generic; [apply FLT_exp_valid; reflexivity|apply valid_rnd_N|apply generic_format_abs, generic_format_B2R|].
  rewrite Rabs_mult. pose proof c_range. rewrite (Rabs_pos_eq c) by lra. pose proof (Rabs_pos (B2R x)). nra.
Qed.
Lemma erf_lip a b : Rabs (Rerf a - Rerf b) <= 12 / 10 * Rabs (a - b).
Proof.
  assert (W : forall a b, a < b -> 0 <= Rerf b - Rerf a <= 12 / 10 * (b - a)).
  { clear. intros a b L. destruct (erf_mvt a b L) as (z & _ & ->). pose proof rate_bound as RB. pose proof root_pi as RP. assert (RP' : 0 < 2 / sqrt PI) by (apply Rdiv_lt_0_compat; lra).
    assert (E : 0 < exp (- (z * z)) <= 1). { split; [apply exp_pos|]. rewrite <- exp_0. pose proof (Rle_0_sqr z) as S. unfold Rsqr in S. destruct (Req_dec (z * z) 0) as [Z|Z]; [rewrite Z, Ropp_0; lra|]. apply Rlt_le, exp_increasing. lra. }
    assert (0 <= 2 / sqrt PI * exp (- (z * z)) <= 12 / 10) by nra. split; [apply Rmult_le_pos; lra|apply Rmult_le_compat_r; lra]. }
  destruct (Rtotal_order a b) as [L|[L|L]].
  - specialize (W a b L). rewrite (Rabs_left1 (_ - _)), Rabs_left by lra. lra.
  - rewrite L, !Rminus_eq_0, Rabs_R0. lra.
  - specialize (W b a L). rewrite !Rabs_pos_eq by lra. lra.
Qed.
Lemma erf_rnd y : Rabs (Rerf (rnd (c * y)) - Rerf (c * y)) <= ulp1.
Proof.
  pose proof c_range as CR. pose proof ulp1_pos as UP. pose proof ulp1_small as US. destruct (Rle_lt_dec (bpow radix2 (-1022)) (Rabs (c * y))) as [L|L].
  - pose proof (rnd_err (c * y) (Rabs (c * y)) (Rle_refl _) L) as E.
    assert (Y : y <> 0). { intros ->. rewrite Rmult_0_r, Rabs_R0 in L. pose proof (bpow_gt_0 radix2 (-1022)). lra. }
    set (b := rnd (c * y) / y). replace (rnd (c * y)) with (y * b) in * by (unfold b; field; exact Y). rewrite (Rmult_comm c y) in *.
    replace (y * b - y * c) with (y * (b - c)) in E by ring. rewrite !Rabs_mult, (Rabs_pos_eq c) in E by lra. assert (YP : 0 < Rabs y) by now apply Rabs_pos_lt.
    assert (BC : Rabs (b - c) <= ulp1 * c). { apply (Rmult_le_reg_l (Rabs y)); [exact YP|]. lra. }
    assert (B0 : 69 / 100 < b). { destruct (Rabs_def2 (b - c) (/ 1000)) as (B1 & B2); [nra|]. lra. }
    eapply Rle_trans; [apply erf_near; lra|]. nra.
  - pose proof (rnd_err (c * y) (bpow radix2 (-1022)) (Rlt_le _ _ L) (Rle_refl _)) as E. eapply Rle_trans; [apply erf_lip|].
    assert (bpow radix2 (-1022) <= / 2) by (change (/ 2) with (bpow radix2 (-1)); apply bpow_le; lia). pose proof (bpow_gt_0 radix2 (-1022)). nra.
Qed.
(** What the code gets from erf. *)
Lemma erf_got e derf (x : double) : erf_within e derf -> is_finite x = true -> exists E, is_finite (derf (dmul (sqrt_half ieee) x)) = true /\
  B2R (derf (dmul (sqrt_half ieee) x)) = E /\ Rabs (E - Rerf (B2R x / sqrt 2)) <= e + 2 * ulp1.
Proof.
  intros H F. destruct (arg_double x F) as (A & FA). destruct (H _ FA) as (G & D). eexists. split; [exact G|]. split; [reflexivity|]. rewrite A in D.
  pose proof (erf_rnd (B2R x)) as R1. pose proof (erf_close_all (B2R x)) as R2. unfold eps54 in R2. assert (U : / IZR (2 ^ 54) <= ulp1). { unfold ulp1. apply Rinv_le; [apply IZR_lt; lia|apply IZR_le; lia]. }
  set (E := B2R (derf _)) in *. replace (E - Rerf (B2R x / sqrt 2)) with ((E - Rerf (rnd (c * B2R x))) + ((Rerf (rnd (c * B2R x)) - Rerf (c * B2R x)) + (Rerf (c * B2R x) - Rerf (B2R x / sqrt 2)))) by ring.
  eapply Rle_trans; [apply Rabs_triang|]. pose proof (Rabs_triang (Rerf (rnd (c * B2R x)) - Rerf (c * B2R x)) (Rerf (c * B2R x) - Rerf (B2R x / sqrt 2))). lra.
Qed.
Lemma tiny y : 1 <= y -> bpow radix2 (-1022) <= y.
Proof. intros H. apply Rle_trans with 1; [|exact H]. change 1 with (bpow radix2 0). apply bpow_le. lia. Qed.

(** unitNormalCDF in doubles, for every finite argument and an erf that is off by at most e:
    off by at most e/2 and 2^-51. *)
Theorem C118_cdf_double : forall e derf x p, 0 <= e <= / 4 -> erf_within e derf -> is_finite x = true -> probability_below (B2R x) p ->
  is_finite (unitNormalCDF ieee derf x) = true /\ Rabs (B2R (unitNormalCDF ieee derf x) - p) <= e / 2 + / IZR (2 ^ 51).
Proof.
  intros e derf x p HE H F P. apply below_val in P. destruct (erf_got e derf x H F) as (E & FE & EE & D). pose proof (Rerf_lt_1 (B2R x / sqrt 2)) as L1. pose proof (Rerf_gt (B2R x / sqrt 2)) as L2. set (r := Rerf (B2R x / sqrt 2)) in *.
  pose proof ulp1_pos as UP. pose proof ulp1_small as US. apply Rabs_le_inv in D.
  unfold unitNormalCDF. change (@nmul ieee) with dmul. change (@nadd ieee) with dadd. change (@of_int ieee 1) with (of_Z 1). set (g := derf (dmul (sqrt_half ieee) x)) in *.
  destruct (of_Z_spec 1 ltac:(lia)) as (E1 & F1). rewrite rnd_Z in E1 by lia.
  assert (B : Rabs (1 + E) <= 23 / 10) by (apply Rabs_le; lra). destruct (dadd_spec (of_Z 1) g 2 F1 FE ltac:(lia)) as (S & FS). { rewrite E1, EE. change (bpow radix2 2) with 4. lra. }
  rewrite E1, EE in S. set (s := dadd (of_Z 1) g) in *. pose proof (rnd_err _ _ B (tiny (23 / 10) ltac:(lra))) as R1. rewrite <- S in R1. apply Rabs_le_inv in R1. apply Rabs_le_inv in B.
  destruct half_double as (EH & FH). assert (B2 : Rabs (/ 2 * B2R s) <= 5 / 4) by (apply Rabs_le; lra). destruct (dmul_spec (half ieee) s 1 FH FS ltac:(lia)) as (V & FV). { rewrite EH. change (bpow radix2 1) with 2. lra. }
  rewrite EH in V. split; [exact FV|]. pose proof (rnd_err _ _ B2 (tiny (5 / 4) ltac:(lra))) as R2. rewrite <- V in R2. apply Rabs_le_inv in R2. assert (U : / IZR (2 ^ 51) = 4 * ulp1) by (unfold ulp1; change (2 ^ 51)%Z with 2251799813685248%Z; change (2 ^ 53)%Z with 9007199254740992%Z; lra).
  rewrite U, P. apply Rabs_le. lra.
Qed.
Print Assumptions C118_cdf_double.

(** probAbsNormal likewise, for the absolute value of its argument. *)
Theorem C118_beyond_double : forall e derf x, 0 <= e <= / 4 -> erf_within e derf -> is_finite x = true ->
  is_finite (probAbsNormal ieee derf x) = true /\ Rabs (B2R (probAbsNormal ieee derf x) - probability_beyond (Rabs (B2R x))) <= e + 5 * / IZR (2 ^ 53).
Proof.
  intros e derf x HE H F. destruct (dabs_ieee x F) as (EA & FA). destruct (erf_got e derf _ H FA) as (E & FE & EE & D). rewrite EA in D. pose proof (Rerf_lt_1 (Rabs (B2R x) / sqrt 2)) as L1. pose proof (Rerf_gt (Rabs (B2R x) / sqrt 2)) as L2.
  assert (Q : probability_beyond (Rabs (B2R x)) = 1 - Rerf (Rabs (B2R x) / sqrt 2)).
  { unfold probability_beyond. rewrite curve_int. unfold phi. replace (- Rabs (B2R x) / sqrt 2) with (- (Rabs (B2R x) / sqrt 2)) by (unfold Rdiv; ring). rewrite Rerf_odd. field. }
  rewrite Q. set (r := Rerf (Rabs (B2R x) / sqrt 2)) in *. pose proof ulp1_pos as UP. pose proof ulp1_small as US. apply Rabs_le_inv in D.
  assert (R0 : 0 <= r) by (apply Rerf_nonneg; apply Rmult_le_pos; [apply Rabs_pos|apply Rlt_le, Rinv_0_lt_compat, root_2]).
  unfold probAbsNormal. change (@nmul ieee) with dmul. change (@nsub ieee) with dsub. change (@of_int ieee 1) with (of_Z 1). set (g := derf (dmul (sqrt_half ieee) (dabs ieee x))) in *.
  destruct (of_Z_spec 1 ltac:(lia)) as (E1 & F1). rewrite rnd_Z in E1 by lia.
  assert (B : Rabs (1 - E) <= 3 / 2) by (apply Rabs_le; lra). destruct (dsub_spec (of_Z 1) g 1 F1 FE ltac:(lia)) as (S & FS). { rewrite E1, EE. change (bpow radix2 1) with 2. lra. }
  rewrite E1, EE in S. split; [exact FS|]. pose proof (rnd_err _ _ B (tiny (3 / 2) ltac:(lra))) as R1. rewrite <- S in R1. apply Rabs_le_inv in R1. fold ulp1. apply Rabs_le. lra.
Qed.
Print Assumptions C118_beyond_double.

(** There is such an erf: the real one, cut off to 53 binary places. *)
Example C118_double_case : exists derf, erf_within (/ IZR (2 ^ 53)) derf /\ 0 <= / IZR (2 ^ 53) <= / 4 /\ is_finite (of_Z 2) = true.
Proof.
  exists (fun y => binary_normalize 53 1024 prec_gt_0_53 prec_lt_emax_53 mode_NE (Zfloor (Rerf (B2R y) * bpow radix2 53)) (-53) false).
  split; [|split; [change (2 ^ 53)%Z with 9007199254740992%Z; lra|vm_compute; reflexivity]]. intros y F. pose proof (Rerf_lt_1 (B2R y)) as L1. pose proof (Rerf_gt (B2R y)) as L2. set (r := Rerf (B2R y)) in *.
  set (m := Zfloor (r * bpow radix2 53)). assert (M : (Z.abs m <= 2 ^ 53)%Z).
  { pose proof (bpow_gt_0 radix2 53) as P. assert (IZR (- 2 ^ 53) <= r * bpow radix2 53) by (rewrite opp_IZR; change (IZR (2 ^ 53)) with (bpow radix2 53); nra). apply Zfloor_lub in H. fold m in H.
    pose proof (Zfloor_lb (r * bpow radix2 53)) as Q. fold m in Q. assert (m <= 2 ^ 53)%Z; [|lia]. apply le_IZR. change (IZR (2 ^ 53)) with (bpow radix2 53). nra. }
  pose proof (binary_normalize_correct 53 1024 prec_gt_0_53 prec_lt_emax_53 mode_NE m (-53) false) as B. cbv zeta in B. unfold F2R in B. cbn [Fnum Fexp] in B.
  assert (G : generic_format radix2 fexp64 (IZR m * bpow radix2 (-53))).
  { destruct (Z.eq_dec (Z.abs m) (2 ^ 53)) as [E|E]; [|apply fmt_F2R; lia]. replace (IZR m * bpow radix2 (-53)) with (IZR (m / 2 ^ 53) * bpow radix2 0); [apply fmt_F2R; [|lia]|].
    - assert (m = 2 ^ 53 \/ m = - 2 ^ 53)%Z as [->| ->] by lia; vm_compute; reflexivity.
    - assert (m = 2 ^ 53 \/ m = - 2 ^ 53)%Z as [->| ->] by lia; [change (2 ^ 53 / 2 ^ 53)%Z with 1%Z|change (- 2 ^ 53 / 2 ^ 53)%Z with (-1)%Z]; cbn [bpow]; change (Z.pow_pos radix2 53) with (2 ^ 53)%Z; try rewrite opp_IZR; field; apply not_0_IZR; lia. }
  assert (K : Rabs (IZR m * bpow radix2 (-53)) <= bpow radix2 0).
  { rewrite Rabs_mult, <- abs_IZR, (Rabs_pos_eq (bpow _ _)) by apply bpow_ge_0. replace (bpow radix2 0) with (bpow radix2 53 * bpow radix2 (-53)) by (rewrite <- bpow_plus; reflexivity). apply Rmult_le_compat_r; [apply bpow_ge_0|]. change (bpow radix2 53) with (IZR (2 ^ 53)). now apply IZR_le. }
  rewrite (no_overflow _ 0) in B by (lia || exact K). destruct B as (B1 & B2 & _). split; [exact B2|]. rewrite B1. fold (rnd (IZR m * bpow radix2 (-53))). change (round radix2 fexp64 (round_mode mode_NE)) with rnd. rewrite rnd_id by exact G.
  pose proof (Zfloor_lb (r * bpow radix2 53)) as Q1. pose proof (Zfloor_ub (r * bpow radix2 53)) as Q2. fold m in Q1, Q2. change (bpow radix2 53) with (IZR (2 ^ 53)) in Q1, Q2. change (bpow radix2 (-53)) with (/ IZR (2 ^ 53)). change (2 ^ 53)%Z with 9007199254740992%Z in *. apply Rabs_le. lra.
Qed.
