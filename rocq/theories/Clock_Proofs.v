(** Proofs about the Tfrac conversions: each is an exact integer function. *)
From Coq Require Import ZArith Bool Reals Lra Lia Psatz.
From Flocq Require Import Core BinarySingleNaN Mult_error.
From Verif Require Import Common Double64 Clock_Model.
Local Open Scope Z_scope.

Lemma of_Z_exact z : Z.abs z <= 2 ^ 53 -> B2R (of_Z z) = IZR z /\ is_finite (of_Z z) = true.
Proof. intros H. destruct (of_Z_spec z) as (E & F); [lia|]. rewrite E, rnd_Z by exact H. auto. Qed.
Lemma bltb_R (a b : double) : is_finite a = true -> is_finite b = true -> Bltb a b = Rlt_bool (B2R a) (B2R b).
Proof. intros. now apply Bltb_correct. Qed.
Lemma floor_spec bits (x : double) : is_finite x = true -> (0 <= B2R x < IZR (2 ^ bits))%R -> (B2R x <= IZR (2 ^ 53))%R ->
  floor_to_unsigned bits x = Ok (Zfloor (B2R x)) /\ 0 <= Zfloor (B2R x) < 2 ^ bits.
Proof.
  intros F (H1 & H2) H3. unfold floor_to_unsigned. rewrite F, trunc_floor by exact H1. cbv zeta.
  assert (P : 0 <= Zfloor (B2R x)) by now apply Zfloor_lub.
  assert (B53 : Zfloor (B2R x) <= 2 ^ 53) by (apply le_IZR; eapply Rle_trans; [apply Zfloor_lb|exact H3]).
  destruct (of_Z_exact (Zfloor (B2R x))) as (E & Ff); [lia|]. rewrite bltb_R by auto. rewrite E, Rlt_bool_false by apply Zfloor_lb.
  assert (U : Zfloor (B2R x) < 2 ^ bits) by (apply lt_IZR; eapply Rle_lt_trans; [apply Zfloor_lb|exact H2]).
  replace (0 <=? Zfloor (B2R x)) with true by lia. replace (Zfloor (B2R x) <? 2 ^ bits) with true by lia. auto.
Qed.
Lemma ceil_spec bits (x : double) : is_finite x = true -> (0 <= B2R x)%R -> (B2R x <= IZR (2 ^ 53))%R -> Zceil (B2R x) < 2 ^ bits ->
  ceil_unsigned bits x = Ok (Zceil (B2R x)).
Proof.
  intros F H1 H3 HU. unfold ceil_unsigned. rewrite F, trunc_floor by exact H1. cbv zeta.
  assert (P : 0 <= Zfloor (B2R x)) by now apply Zfloor_lub.
  assert (B53 : Zfloor (B2R x) <= 2 ^ 53) by (apply le_IZR; eapply Rle_trans; [apply Zfloor_lb|exact H3]).
  destruct (of_Z_exact (Zfloor (B2R x))) as (E & Ff); [lia|]. rewrite bltb_R by auto. rewrite E.
  assert (EC : (if Rlt_bool (IZR (Zfloor (B2R x))) (B2R x) then Zfloor (B2R x) + 1 else Zfloor (B2R x)) = Zceil (B2R x)).
  { case Rlt_bool_spec; intros H.
    - rewrite Zceil_floor_neq by lra. reflexivity.
    - assert (Q : IZR (Zfloor (B2R x)) = B2R x) by (apply Rle_antisym; [apply Zfloor_lb|exact H]). rewrite <- Q at 2. now rewrite Zceil_IZR. }
  rewrite EC. assert (0 <= Zceil (B2R x)) by (apply le_IZR; eapply Rle_trans; [exact H1|apply Zceil_ub]).
  replace (0 <=? Zceil (B2R x)) with true by lia. replace (Zceil (B2R x) <? 2 ^ bits) with true by lia. reflexivity.
Qed.
(** Half an ulp, for numbers up to 2^e. *)
Lemma rnd_error x e : -1000 <= e <= 1000 -> (Rabs x <= bpow radix2 e)%R -> (Rabs (rnd x - x) <= bpow radix2 (e - 53))%R.
Proof.
  intros He Hx. unfold rnd. eapply Rle_trans; [apply error_le_half_ulp; apply FLT_exp_valid; reflexivity|].
  assert (U : (ulp radix2 fexp64 x <= ulp radix2 fexp64 (bpow radix2 e))%R).
  { apply ulp_le; [apply FLT_exp_valid; reflexivity|apply FLT_exp_monotone|]. rewrite (Rabs_pos_eq (bpow radix2 e)) by apply bpow_ge_0. exact Hx. }
  rewrite ulp_bpow in U. replace (SpecFloat.fexp 53 1024 (e + 1)) with (e - 52) in U by (unfold SpecFloat.fexp, SpecFloat.emin; lia).
  replace (e - 52) with (1 + (e - 53)) in U by lia. rewrite bpow_plus in U. change (bpow radix2 1) with 2%R in U. lra.
Qed.
(** Rounding does not move a quotient with a small denominator over an integer. *)
Lemma ceil_rnd m d : 0 <= m -> 0 < d < 2 ^ 21 -> m <= d * 2 ^ 32 -> Zceil (rnd (IZR m / IZR d)) = (m + d - 1) / d.
Proof.
  intros Hm Hd Hq. set (k := (m + d - 1) / d). assert (D : (0 < IZR d)%R) by (apply IZR_lt; lia).
  pose proof (Z.div_mod (m + d - 1) d ltac:(lia)) as M. pose proof (Z.mod_pos_bound (m + d - 1) d ltac:(lia)) as MB. fold k in M.
  assert (K1 : m <= k * d) by lia. assert (K2 : (k - 1) * d + 1 <= m) by lia.
  assert (K0 : 0 <= k) by (apply Z.div_pos; lia). assert (K3 : k <= 2 ^ 32) by nia.
  assert (Q1 : (IZR m / IZR d <= IZR k)%R). { apply Rmult_le_reg_r with (IZR d); [exact D|]. unfold Rdiv. rewrite Rmult_assoc, Rinv_l, Rmult_1_r by lra. rewrite <- mult_IZR. now apply IZR_le. }
  assert (Q2 : (IZR k - 1 + / IZR d <= IZR m / IZR d)%R).
  { apply Rmult_le_reg_r with (IZR d); [exact D|]. unfold Rdiv. rewrite Rmult_plus_distr_r, Rmult_assoc, Rinv_l, Rmult_1_r by lra. rewrite <- minus_IZR, <- mult_IZR, <- plus_IZR. now apply IZR_le. }
  assert (Q0 : (0 <= IZR m / IZR d)%R) by (apply Rmult_le_pos; [now apply IZR_le|left; now apply Rinv_0_lt_compat]).
  assert (U : (rnd (IZR m / IZR d) <= IZR k)%R) by (rewrite <- (rnd_Z k) by lia; now apply rnd_le).
  assert (Er : (Rabs (rnd (IZR m / IZR d) - IZR m / IZR d) <= bpow radix2 (32 - 53))%R).
  { apply rnd_error; [lia|]. rewrite Rabs_pos_eq by exact Q0. eapply Rle_trans; [exact Q1|]. change (bpow radix2 32) with (IZR (2 ^ 32)). now apply IZR_le. }
  assert (I : (bpow radix2 (32 - 53) < / IZR d)%R).
  { change (bpow radix2 (32 - 53)) with (/ IZR (2 ^ 21))%R. apply Rinv_lt_contravar; [apply Rmult_lt_0_compat; [exact D|apply IZR_lt; lia]|apply IZR_lt; lia]. }
  apply Zceil_imp. split; [|exact U]. rewrite minus_IZR. apply Rabs_le_inv in Er. lra.
Qed.
Lemma floor_quot m d : 0 < d -> Zfloor (IZR m / IZR d) = m / d.
Proof. intros Hd. apply Zfloor_div. lia. Qed.

Definition fracs (r scale : Z) : Z := (r * 2 ^ 32 + scale - 1) / scale.
Lemma mul_2_32 z : 0 <= z < 2 ^ 32 -> B2R (dmul (of_Z z) DBL_TFRAC_PER_SECOND) = IZR (z * 2 ^ 32) /\ is_finite (dmul (of_Z z) DBL_TFRAC_PER_SECOND) = true.
Proof.
  intros H. unfold DBL_TFRAC_PER_SECOND. destruct (of_Z_exact z) as (E1 & F1); [lia|]. destruct (of_Z_exact (2 ^ 32)) as (E2 & F2); [lia|].
  destruct (dmul_spec (of_Z z) (of_Z (2 ^ 32)) 64 F1 F2) as (E & F); [lia| |].
  - rewrite E1, E2, <- mult_IZR, <- abs_IZR. change (bpow radix2 64) with (IZR (2 ^ 64)). apply IZR_le. nia.
  - split; [|exact F]. rewrite E, E1, E2. rewrite mult_IZR. change (IZR (2 ^ 32)) with (bpow radix2 32). apply rnd_id. apply fmt_F2R; lia.
Qed.
Lemma fracs_range r scale : 0 <= r < scale -> scale <= 2 ^ 32 -> 0 <= fracs r scale < 2 ^ 32.
Proof. intros H Hs. unfold fracs. split; [apply Z.div_pos; lia|]. apply Z.div_lt_upper_bound; lia. Qed.
Lemma fracs_exact r scale : 0 <= r < scale -> scale <= 2 ^ 32 -> forall g, 0 < g -> scale mod g = 0 -> (2 ^ 32) mod g = 0 -> scale / g < 2 ^ 21 ->
  ceil_unsigned 64 (ddiv (dmul (of_Z r) DBL_TFRAC_PER_SECOND) (of_Z scale)) = Ok (fracs r scale).
Proof.
  intros Hr Hs g Hg G1 G2 G3. destruct (mul_2_32 r) as (E1 & F1); [lia|]. destruct (of_Z_exact scale) as (E2 & F2); [lia|].
  assert (Dp : (0 < IZR scale)%R) by (apply IZR_lt; lia).
  assert (S : scale = g * (scale / g)) by (apply Z.div_exact; [lia|exact G1]).
  assert (T : 2 ^ 32 = g * (2 ^ 32 / g)) by (apply Z.div_exact; [lia|exact G2]).
  set (d := scale / g) in *. set (w := 2 ^ 32 / g) in *. assert (D0 : 0 < d) by nia. assert (W0 : 0 < w) by nia.
  assert (Q : (IZR (r * 2 ^ 32) / IZR scale = IZR (r * w) / IZR d)%R).
  { rewrite T. rewrite S at 1. rewrite !mult_IZR. field. split; apply not_0_IZR; lia. }
  assert (RW : r * w <= d * 2 ^ 32) by nia.
  assert (N0 : (0 <= IZR (r * w) / IZR d)%R) by (apply Rmult_le_pos; [apply IZR_le; nia|left; apply Rinv_0_lt_compat, IZR_lt; lia]).
  assert (N1 : (IZR (r * w) / IZR d <= IZR (2 ^ 32))%R).
  { apply Rmult_le_reg_r with (IZR d); [apply IZR_lt; lia|]. unfold Rdiv. rewrite Rmult_assoc, Rinv_l, Rmult_1_r by (apply not_0_IZR; lia). rewrite <- mult_IZR. apply IZR_le. lia. }
  destruct (ddiv_spec (dmul (of_Z r) DBL_TFRAC_PER_SECOND) (of_Z scale) 32 F1) as (E & F); [rewrite E2; lra|lia| |].
  { rewrite E1, E2, Q. rewrite Rabs_pos_eq by exact N0. exact N1. }
  rewrite E1, E2, Q in E. assert (C := ceil_rnd (r * w) d ltac:(nia) ltac:(lia) RW).
  assert (FR : (r * w + d - 1) / d = fracs r scale).
  { unfold fracs. rewrite T, S. apply Z.div_unique with ((r * w + d - 1) mod d * g + (g - 1)).
    - left. assert (B : 0 <= (r * w + d - 1) mod d < d) by (apply Z.mod_pos_bound; lia). set (k := (r * w + d - 1) mod d) in *. assert ((k + 1) * g <= d * g) by (apply Z.mul_le_mono_nonneg_r; lia). assert (0 <= k * g) by (apply Z.mul_nonneg_nonneg; lia). lia.
    - pose proof (Z.div_mod (r * w + d - 1) d ltac:(lia)) as M. set (q := (r * w + d - 1) / d) in *. set (k := (r * w + d - 1) mod d) in *. nia. }
  rewrite FR in C. rewrite ceil_spec; rewrite ?E, ?C; auto.
  - rewrite <- rnd_0. now apply rnd_le.
  - rewrite <- (rnd_Z (2 ^ 53)) by lia. apply rnd_le. eapply Rle_trans; [exact N1|]. apply IZR_le. lia.
  - pose proof (fracs_range r scale Hr Hs). lia.
Qed.

Lemma rnd_error_lt x e : -1000 <= e <= 1000 -> (Rabs x < bpow radix2 e)%R -> (Rabs (rnd x - x) <= bpow radix2 (e - 54))%R.
Proof.
  intros He Hx. destruct (Req_dec x 0) as [->|N]; [rewrite rnd_0, Rminus_diag_eq, Rabs_R0 by reflexivity; apply bpow_ge_0|].
  unfold rnd. eapply Rle_trans; [apply error_le_half_ulp; apply FLT_exp_valid; reflexivity|]. rewrite ulp_neq_0 by exact N. unfold cexp.
  assert (M : mag radix2 x <= e) by (apply mag_le_bpow; assumption).
  assert (L : (bpow radix2 (SpecFloat.fexp 53 1024 (mag radix2 x)) <= bpow radix2 (1 + (e - 54)))%R) by (apply bpow_le; unfold SpecFloat.fexp, SpecFloat.emin; lia).
  rewrite bpow_plus in L. change (bpow radix2 1) with 2%R in L. lra.
Qed.
Lemma low_spec t : 0 <= t -> Z.land t (2 ^ 32 - 1) = t mod 2 ^ 32.
Proof. intros H. change (2 ^ 32 - 1) with (Z.ones 32). apply Z.land_ones. lia. Qed.
Lemma sec_spec t : 0 <= t < 2 ^ 64 -> TfracToSec t = t / 2 ^ 32.
Proof. intros H. unfold TfracToSec. rewrite Z.shiftr_div_pow2 by lia. apply Z.mod_small. split; [apply Z.div_pos; lia|]. apply Z.div_lt_upper_bound; lia. Qed.
Lemma quot_nonneg m d : 0 <= m -> 0 < d -> (0 <= IZR m / IZR d)%R.
Proof. intros H D. apply Rmult_le_pos; [now apply IZR_le|left; now apply Rinv_0_lt_compat, IZR_lt]. Qed.
Lemma quot_lt m d u : 0 < d -> m < u * d -> (IZR m / IZR d < IZR u)%R.
Proof. intros D H. apply Rmult_lt_reg_r with (IZR d); [now apply IZR_lt|]. unfold Rdiv. rewrite Rmult_assoc, Rinv_l, Rmult_1_r by (apply not_0_IZR; lia). rewrite <- mult_IZR. now apply IZR_lt. Qed.
Lemma div_2_32 (x : double) : is_finite x = true -> (0 <= B2R x <= IZR (2 ^ 64))%R -> (B2R x = 0 \/ bpow radix2 (-900) <= B2R x)%R ->
  B2R (ddiv x DBL_TFRAC_PER_SECOND) = (B2R x / IZR (2 ^ 32))%R /\ is_finite (ddiv x DBL_TFRAC_PER_SECOND) = true.
Proof.
  intros F (H1 & H2) Hz. destruct (of_Z_exact (2 ^ 32)) as (E2 & F2); [lia|]. fold DBL_TFRAC_PER_SECOND in E2, F2.
  assert (P32 : (0 < IZR (2 ^ 32))%R) by (apply IZR_lt; lia).
  assert (N : (0 <= B2R x / IZR (2 ^ 32))%R) by (apply Rmult_le_pos; [exact H1|left; now apply Rinv_0_lt_compat]).
  destruct (ddiv_spec x DBL_TFRAC_PER_SECOND 64 F) as (E & Fd); [rewrite E2; lra|lia| |].
  - rewrite E2, Rabs_pos_eq by exact N. change (bpow radix2 64) with (IZR (2 ^ 64)). eapply Rle_trans; [|exact H2]. apply Rmult_le_reg_r with (IZR (2 ^ 32)); [exact P32|]. unfold Rdiv. rewrite Rmult_assoc, Rinv_l, Rmult_1_r by lra.
    assert (1 <= IZR (2 ^ 32))%R by (apply IZR_le; lia). nra.
  - split; [|exact Fd]. rewrite E, E2. apply rnd_id. replace (B2R x / IZR (2 ^ 32))%R with (B2R x * bpow radix2 (-32))%R by reflexivity.
    destruct Hz as [->|Hz]; [rewrite Rmult_0_l; apply generic_format_0|]. change fexp64 with (FLT_exp (-1074) 53). apply mult_bpow_exact_FLT; [apply (generic_format_B2R 53 1024)|].
    assert (M : -900 < mag radix2 (B2R x)) by (apply mag_gt_bpow; rewrite Rabs_pos_eq by exact H1; exact Hz). lia.
Qed.
(** Taking the whole microseconds or nanoseconds of a fraction is exact: the product is
    a multiple of [g], and rounding moves it by less. *)
Lemma extract_exact low scale g e : 0 <= low < 2 ^ 32 -> 0 < scale <= 2 ^ 30 -> 0 < g -> scale mod g = 0 -> (2 ^ 32) mod g = 0 ->
  0 <= e <= 62 -> 2 ^ 32 * scale <= 2 ^ e -> (bpow radix2 (e - 54) < IZR g)%R ->
  floor_to_unsigned 32 (ddiv (dmul (of_Z low) (of_Z scale)) DBL_TFRAC_PER_SECOND) = Ok (low * scale / 2 ^ 32).
Proof.
  intros Hl Hs Hg G1 G2 He HP Hb. destruct (of_Z_exact low) as (E1 & F1); [lia|]. destruct (of_Z_exact scale) as (E2 & F2); [lia|].
  set (P := low * scale). assert (P0 : 0 <= P) by (unfold P; nia). assert (P1 : P < 2 ^ e) by (unfold P; nia).
  assert (Pe : (IZR P < bpow radix2 e)%R). { rewrite <- IZR_Zpower by lia. now apply IZR_lt. }
  assert (P0R : (0 <= IZR P)%R) by now apply IZR_le.
  destruct (dmul_spec (of_Z low) (of_Z scale) e F1 F2) as (E & F); [lia| |].
  { rewrite E1, E2, <- mult_IZR. fold P. rewrite Rabs_pos_eq by exact P0R. lra. }
  rewrite E1, E2, <- mult_IZR in E. fold P in E. set (y := dmul (of_Z low) (of_Z scale)) in *.
  set (k := P / 2 ^ 32). pose proof (Z.div_mod P (2 ^ 32) ltac:(lia)) as M. pose proof (Z.mod_pos_bound P (2 ^ 32) ltac:(lia)) as MB. fold k in M.
  assert (K0 : 0 <= k) by (apply Z.div_pos; lia). assert (K1 : k < 2 ^ 30) by (apply Z.div_lt_upper_bound; [lia|unfold P; nia]).
  assert (L : (IZR (k * 2 ^ 32) <= B2R y)%R).
  { rewrite E. rewrite <- (rnd_id (IZR (k * 2 ^ 32))). - apply rnd_le, IZR_le. lia.
    - rewrite mult_IZR. change (IZR (2 ^ 32)) with (bpow radix2 32). apply fmt_F2R; lia. }
  assert (Gap : P + g <= (k + 1) * 2 ^ 32).
  { assert (S : scale = g * (scale / g)) by (apply Z.div_exact; [lia|exact G1]). assert (T : 2 ^ 32 = g * (2 ^ 32 / g)) by (apply Z.div_exact; [lia|exact G2]).
    set (d := scale / g) in *. set (w := 2 ^ 32 / g) in *.
    assert (Q : P = g * (low * d)) by (unfold P; rewrite S; ring). assert (Q' : (k + 1) * 2 ^ 32 = g * ((k + 1) * w)) by (rewrite T; ring).
    assert (A : P < (k + 1) * 2 ^ 32) by lia. rewrite Q, Q' in *. set (a := low * d) in *. set (b := (k + 1) * w) in *.
    assert (a < b) by (apply (Z.mul_lt_mono_pos_l g); assumption). nia. }
  assert (U : (B2R y < IZR ((k + 1) * 2 ^ 32))%R).
  { rewrite E. pose proof (rnd_error_lt (IZR P) e ltac:(lia)) as Er. rewrite (Rabs_pos_eq (IZR P)) in Er by exact P0R. specialize (Er Pe).
    apply Rabs_le_inv in Er. apply IZR_le in Gap. rewrite plus_IZR in Gap. lra. }
  assert (Y0 : (0 <= B2R y)%R) by (eapply Rle_trans; [|exact L]; apply IZR_le; nia).
  assert (C32 : (0 < IZR (2 ^ 32))%R) by (apply IZR_lt; lia).
  destruct (div_2_32 y F) as (Ed & Fd).
  { split; [exact Y0|]. left. eapply Rlt_le_trans; [exact U|]. apply IZR_le. nia. }
  { rewrite E. destruct (Z.eq_dec P 0) as [->|NP]; [left; apply rnd_0|right]. apply Rle_trans with 1%R; [change 1%R with (bpow radix2 0); apply bpow_le; lia|].
    rewrite <- (rnd_Z 1) by lia. apply rnd_le. apply (IZR_le 1). lia. }
  assert (FL : Zfloor (B2R (ddiv y DBL_TFRAC_PER_SECOND)) = k).
  { rewrite Ed. rewrite mult_IZR in L, U. apply Zfloor_imp. split.
    - apply Rmult_le_reg_r with (IZR (2 ^ 32)); [exact C32|]. unfold Rdiv. rewrite Rmult_assoc, Rinv_l, Rmult_1_r by lra. exact L.
    - apply Rmult_lt_reg_r with (IZR (2 ^ 32)); [exact C32|]. unfold Rdiv. rewrite Rmult_assoc, Rinv_l, Rmult_1_r by lra. exact U. }
  assert (UB1 : (B2R (ddiv y DBL_TFRAC_PER_SECOND) < IZR (k + 1))%R).
  { rewrite plus_IZR, <- FL. apply Zfloor_ub. }
  destruct (floor_spec 32 (ddiv y DBL_TFRAC_PER_SECOND) Fd) as (A & _).
  - split.
    + rewrite Ed. apply Rmult_le_pos; [exact Y0|left; now apply Rinv_0_lt_compat].
    + eapply Rlt_le_trans; [exact UB1|]. apply IZR_le. lia.
  - left. eapply Rlt_le_trans; [exact UB1|]. apply IZR_le. lia.
  - rewrite A, FL. reflexivity.
Qed.
Lemma micro_extract t : 0 <= t -> TfracToMicroSec t = Ok (t mod 2 ^ 32 * 10 ^ 6 / 2 ^ 32).
Proof.
  intros H. unfold TfracToMicroSec. cbv zeta. rewrite low_spec by exact H.
  apply (extract_exact _ _ 64 52); try lia; try reflexivity. - apply Z.mod_pos_bound; lia. - change (52 - 54) with (-2). apply Rlt_trans with (bpow radix2 0); [apply bpow_lt; lia|]. apply (IZR_lt 1 64). lia.
Qed.
Lemma nano_extract t : 0 <= t -> TfracToNanoSec t = Ok (t mod 2 ^ 32 * 10 ^ 9 / 2 ^ 32).
Proof.
  intros H. unfold TfracToNanoSec. cbv zeta. rewrite low_spec by exact H.
  apply (extract_exact _ _ 512 62); try lia; try reflexivity. - apply Z.mod_pos_bound; lia. - change (bpow radix2 (62 - 54)) with (IZR 256). apply IZR_lt. lia.
Qed.
Lemma join_exact s l : 0 <= s < 2 ^ 32 -> 0 <= l < 2 ^ 32 -> (Z.shiftl s 32 mod 2 ^ 64 + l) mod 2 ^ 64 = s * 2 ^ 32 + l.
Proof. intros Hs Hl. rewrite Z.shiftl_mul_pow2 by lia. rewrite (Z.mod_small (s * 2 ^ 32)) by lia. apply Z.mod_small. lia. Qed.
Lemma micro_exact s us : 0 <= s < 2 ^ 32 -> 0 <= us < 10 ^ 6 -> secMicroToTfrac s us = Ok (s * 2 ^ 32 + fracs us (10 ^ 6)).
Proof.
  intros Hs Hu. unfold secMicroToTfrac. rewrite (fracs_exact us (10 ^ 6) Hu ltac:(lia) 64) by (lia || reflexivity). cbn [bind]. f_equal. apply join_exact; [exact Hs|]. apply fracs_range; lia.
Qed.
Lemma nano_exact s ns : 0 <= s < 2 ^ 32 -> 0 <= ns < 10 ^ 9 -> secNanoToTfrac s ns = Ok (s * 2 ^ 32 + fracs ns (10 ^ 9)).
Proof.
  intros Hs Hu. unfold secNanoToTfrac. rewrite (fracs_exact ns (10 ^ 9) Hu ltac:(lia) 512) by (lia || reflexivity). cbn [bind]. f_equal. apply join_exact; [exact Hs|]. apply fracs_range; lia.
Qed.

Lemma fracs_bounds r scale : 0 < scale -> r * 2 ^ 32 <= fracs r scale * scale < r * 2 ^ 32 + scale.
Proof.
  intros H. unfold fracs. pose proof (Z.div_mod (r * 2 ^ 32 + scale - 1) scale ltac:(lia)). pose proof (Z.mod_pos_bound (r * 2 ^ 32 + scale - 1) scale ltac:(lia)). lia.
Qed.
Lemma fracs_back r scale : 0 < scale <= 2 ^ 32 -> fracs r scale * scale / 2 ^ 32 = r.
Proof. intros H. pose proof (fracs_bounds r scale ltac:(lia)). symmetry. apply Z.div_unique with (fracs r scale * scale - r * 2 ^ 32); lia. Qed.
Lemma fracs_lt r r' scale : 0 < scale <= 2 ^ 32 -> r < r' -> fracs r scale < fracs r' scale.
Proof.
  intros H L. pose proof (fracs_bounds r scale ltac:(lia)). pose proof (fracs_bounds r' scale ltac:(lia)).
  apply (Z.mul_lt_mono_pos_r scale); lia.
Qed.
Lemma fracs_scale r scale c : 0 < scale -> 0 < c -> fracs (r * c) (scale * c) = fracs r scale.
Proof.
  intros Hs Hc. unfold fracs. symmetry. apply Z.div_unique with ((r * 2 ^ 32 + scale - 1) mod scale * c + (c - 1)).
  - left. pose proof (Z.mod_pos_bound (r * 2 ^ 32 + scale - 1) scale Hs) as B. set (k := (r * 2 ^ 32 + scale - 1) mod scale) in *.
    assert ((k + 1) * c <= scale * c) by (apply Z.mul_le_mono_nonneg_r; lia). assert (0 <= k * c) by (apply Z.mul_nonneg_nonneg; lia). lia.
  - pose proof (Z.div_mod (r * 2 ^ 32 + scale - 1) scale ltac:(lia)) as M. set (q := (r * 2 ^ 32 + scale - 1) / scale) in *. set (k := (r * 2 ^ 32 + scale - 1) mod scale) in *.
    transitivity (c * (r * 2 ^ 32 + scale - 1) + (c - 1)); [ring|]. rewrite M. ring.
Qed.

Lemma of_Tfrac t : 0 <= t < 2 ^ 64 -> B2R (TfracToDouble t) = rnd (IZR t / IZR (2 ^ 32)) /\ is_finite (TfracToDouble t) = true.
Proof.
  intros H. unfold TfracToDouble. rewrite sec_spec, low_spec by lia.
  pose proof (Z.div_mod t (2 ^ 32) ltac:(lia)) as M. pose proof (Z.mod_pos_bound t (2 ^ 32) ltac:(lia)) as MB.
  assert (S0 : 0 <= t / 2 ^ 32) by (apply Z.div_pos; lia). assert (S1 : t / 2 ^ 32 < 2 ^ 32) by (apply Z.div_lt_upper_bound; lia).
  set (s := t / 2 ^ 32) in *. set (l := t mod 2 ^ 32) in *.
  destruct (of_Z_exact s) as (E1 & F1); [lia|]. destruct (of_Z_exact l) as (E2 & F2); [lia|].
  destruct (div_2_32 (of_Z l) F2) as (E3 & F3).
  - rewrite E2. split; apply IZR_le; lia.
  - rewrite E2. destruct (Z.eq_dec l 0) as [->|N]; [now left|right]. apply Rle_trans with 1%R; [change 1%R with (bpow radix2 0); apply bpow_le; lia|]. apply (IZR_le 1). lia.
  - rewrite E2 in E3.
    assert (Q : (IZR s + IZR l / IZR (2 ^ 32) = IZR t / IZR (2 ^ 32))%R). { rewrite M. rewrite plus_IZR, mult_IZR. field. apply not_0_IZR. lia. }
    destruct (dadd_spec (of_Z s) (ddiv (of_Z l) DBL_TFRAC_PER_SECOND) 32 F1 F3) as (E & F); [lia| |].
    + rewrite E1, E3, Q. rewrite Rabs_pos_eq by (apply quot_nonneg; lia). left. change (bpow radix2 32) with (IZR (2 ^ 32)). apply quot_lt; lia.
    + rewrite E1, E3, Q in E. auto.
Qed.
Lemma of_Tfrac_exact t : 0 <= t < 2 ^ 53 -> B2R (TfracToDouble t) = (IZR t / IZR (2 ^ 32))%R.
Proof.
  intros H. destruct (of_Tfrac t) as (E & _); [lia|]. rewrite E. apply rnd_id. change (IZR t / IZR (2 ^ 32))%R with (IZR t * bpow radix2 (-32))%R. apply fmt_F2R; lia.
Qed.

(** The fractional part of a double is a double, also after scaling up. *)
Lemma frac_format (x : R) k : 0 <= k -> generic_format radix2 fexp64 x -> (0 <= x)%R -> generic_format radix2 fexp64 ((x - IZR (Zfloor x)) * bpow radix2 k).
Proof.
  intros Hk G H. change fexp64 with (FLT_exp (-1074) 53) in G. apply FLT_format_generic in G; [|reflexivity]. destruct G as [[m e] E Hm He]. cbn [Fnum Fexp] in *. unfold F2R in E. cbn [Fnum Fexp] in E.
  assert (Hm' : Z.abs m < 2 ^ 53) by exact Hm.
  assert (M0 : 0 <= m). { destruct (Z_lt_le_dec m 0) as [L|L]; [|exact L]. exfalso. apply IZR_lt in L. pose proof (bpow_gt_0 radix2 e). nra. }
  destruct (Z_le_gt_dec 0 e) as [P|P].
  - assert (I : x = IZR (m * 2 ^ e)) by (rewrite E, mult_IZR; f_equal; now rewrite <- (IZR_Zpower radix2)).
    rewrite I, Zfloor_IZR. replace ((IZR (m * 2 ^ e) - IZR (m * 2 ^ e)) * bpow radix2 k)%R with 0%R by ring. apply generic_format_0.
  - assert (B : (bpow radix2 e = / IZR (2 ^ - e))%R). { rewrite <- (Z.opp_involutive e) at 1. rewrite bpow_opp. f_equal. now rewrite <- (IZR_Zpower radix2) by lia. }
    assert (Pp : 0 < 2 ^ - e) by (apply Z.pow_pos_nonneg; lia). set (w := 2 ^ - e) in *.
    assert (F : Zfloor x = m / w) by (rewrite E, B; apply floor_quot; exact Pp).
    assert (R0 : (x - IZR (Zfloor x) = IZR (m mod w) * bpow radix2 e)%R).
    { rewrite F, E, B. rewrite (Z.div_mod m w) at 1 by lia. rewrite plus_IZR, mult_IZR. field. apply not_0_IZR. lia. }
    rewrite R0, Rmult_assoc, <- bpow_plus. pose proof (Z.mod_pos_bound m w Pp) as MB. assert (m mod w <= m) by (apply Z.mod_le; lia). apply fmt_F2R; lia.
Qed.
Lemma half_spec : B2R (ddiv (of_Z 1) (of_Z 2)) = (/ 2)%R /\ is_finite (ddiv (of_Z 1) (of_Z 2)) = true.
Proof.
  destruct (of_Z_exact 1) as (E1 & F1); [lia|]. destruct (of_Z_exact 2) as (E2 & F2); [lia|].
  destruct (ddiv_spec (of_Z 1) (of_Z 2) 1 F1) as (E & F); [rewrite E2; lra|lia| |].
  - rewrite E1, E2. rewrite Rabs_pos_eq by lra. change (bpow radix2 1) with 2%R. lra.
  - split; [|exact F]. rewrite E, E1, E2. replace (1 / 2)%R with (IZR 1 * bpow radix2 (-1))%R by (change (bpow radix2 (-1)) with (/ 2)%R; lra).
    rewrite rnd_id by (apply fmt_F2R; lia). change (bpow radix2 (-1)) with (/ 2)%R. lra.
Qed.
Lemma floor_frac x : (0 <= x - IZR (Zfloor x) < 1)%R.
Proof. pose proof (Zfloor_lb x). pose proof (Zfloor_ub x). lra. Qed.
Lemma sub_floor (x : double) : is_finite x = true -> (0 <= B2R x <= IZR (2 ^ 53))%R ->
  B2R (dsub x (of_Z (Zfloor (B2R x)))) = (B2R x - IZR (Zfloor (B2R x)))%R /\ is_finite (dsub x (of_Z (Zfloor (B2R x)))) = true.
Proof.
  intros F (H1 & H2). assert (P : 0 <= Zfloor (B2R x)) by now apply Zfloor_lub.
  assert (B53 : Zfloor (B2R x) <= 2 ^ 53) by (apply le_IZR; eapply Rle_trans; [apply Zfloor_lb|exact H2]).
  destruct (of_Z_exact (Zfloor (B2R x))) as (E & Ff); [lia|]. pose proof (floor_frac (B2R x)) as Q.
  destruct (dsub_spec x (of_Z (Zfloor (B2R x))) 0 F Ff) as (E1 & F1); [lia| |].
  - rewrite E. rewrite Rabs_pos_eq by lra. change (bpow radix2 0) with 1%R. lra.
  - split; [|exact F1]. rewrite E1, E. apply rnd_id. rewrite <- (Rmult_1_r (_ - _)). change 1%R with (bpow radix2 0). apply frac_format; [lia|apply (generic_format_B2R 53 1024)|exact H1].
Qed.
Lemma bleb_R (a b : double) : is_finite a = true -> is_finite b = true -> Bleb a b = Rle_bool (B2R a) (B2R b).
Proof. intros. now apply Bleb_correct. Qed.
Lemma round_spec bits (x : double) : is_finite x = true -> (0 <= B2R x <= IZR (2 ^ 53))%R ->
  round_unsigned bits x = if Zfloor (B2R x + / 2)%R <? 2 ^ bits then Ok (Zfloor (B2R x + / 2)%R) else UB.
Proof.
  intros F (H1 & H2). unfold round_unsigned. rewrite F, trunc_floor by exact H1. cbv zeta.
  destruct (sub_floor x F) as (E1 & F1); [lra|]. destruct half_spec as (Eh & Fh). rewrite bleb_R by auto. rewrite E1, Eh.
  assert (P : 0 <= Zfloor (B2R x)) by now apply Zfloor_lub.
  assert (B53 : Zfloor (B2R x) <= 2 ^ 53) by (apply le_IZR; eapply Rle_trans; [apply Zfloor_lb|exact H2]).
  destruct (of_Z_exact (Zfloor (B2R x))) as (E & Ff); [lia|]. pose proof (floor_frac (B2R x)) as Q.
  destruct (dsub_spec (of_Z (Zfloor (B2R x))) x 0 Ff F) as (E2 & F2); [lia| |].
  { rewrite E, Rabs_minus_sym. rewrite Rabs_pos_eq by lra. change (bpow radix2 0) with 1%R. lra. }
  rewrite bleb_R by auto. rewrite E2, E, Eh.
  assert (N : (rnd (IZR (Zfloor (B2R x)) - B2R x) <= 0)%R) by (rewrite <- rnd_0; apply rnd_le; lra).
  rewrite (Rle_bool_false (/ 2)%R (rnd _)) by lra.
  assert (R : (if Rle_bool (/ 2)%R (B2R x - IZR (Zfloor (B2R x)))%R then Zfloor (B2R x) + 1 else Zfloor (B2R x)) = Zfloor (B2R x + / 2)%R).
  { case Rle_bool_spec; intros C; symmetry; apply Zfloor_imp; rewrite ?plus_IZR; lra. }
  rewrite R. replace (0 <=? Zfloor (B2R x + / 2)%R) with true; [reflexivity|]. symmetry. apply Z.leb_le. apply Zfloor_lub. cbn. lra.
Qed.
(** Every finite nonnegative argument: to the nearest Tfrac, halves up, unless the
    fraction of the second rounds up to a whole second. *)
Lemma seconds_exact (x : double) : is_finite x = true -> (0 <= B2R x < IZR (2 ^ 32 - 1))%R ->
  secondsToTfrac x = if Rlt_bool (B2R x - IZR (Zfloor (B2R x)))%R (1 - bpow radix2 (-33))%R then Ok (Zfloor (B2R x * IZR (2 ^ 32) + / 2)%R) else UB.
Proof.
  intros F (H1 & H2). unfold secondsToTfrac. destruct (of_Z_exact (2 ^ 32 - 1)) as (Em & Fm); [lia|].
  rewrite bltb_R by auto. rewrite Em, Rlt_bool_true by exact H2. cbn [negb].
  assert (L53 : (IZR (2 ^ 32 - 1) <= IZR (2 ^ 53))%R) by (apply IZR_le; lia).
  assert (L32 : (IZR (2 ^ 32 - 1) <= IZR (2 ^ 32))%R) by (apply IZR_le; lia).
  destruct (floor_spec 32 x F) as (A & Ar); [lra|lra|]. rewrite A. cbn [bind].
  destruct (sub_floor x F) as (E1 & F1); [lra|]. set (z := Zfloor (B2R x)) in *. pose proof (floor_frac (B2R x)) as Q. fold z in Q.
  destruct (of_Z_exact (2 ^ 32)) as (E2 & F2); [lia|]. fold DBL_TFRAC_PER_SECOND in E2, F2.
  assert (C32 : (0 < IZR (2 ^ 32))%R) by (apply IZR_lt; lia).
  destruct (dmul_spec (dsub x (of_Z z)) DBL_TFRAC_PER_SECOND 32 F1 F2) as (E3 & F3); [lia| |].
  { rewrite E1, E2. rewrite Rabs_pos_eq by nra. change (bpow radix2 32) with (IZR (2 ^ 32)). nra. }
  rewrite E1, E2 in E3. rewrite rnd_id in E3 by (change (IZR (2 ^ 32)) with (bpow radix2 32); apply frac_format; [lia|apply (generic_format_B2R 53 1024)|exact H1]).
  rewrite round_spec; [|exact F3|rewrite E3; assert (IZR (2 ^ 32) <= IZR (2 ^ 53))%R by (apply IZR_le; lia); nra].
  rewrite E3. set (f := (B2R x - IZR z)%R) in *.
  assert (B33 : (bpow radix2 (-33) * IZR (2 ^ 32) = / 2)%R). { change (IZR (2 ^ 32)) with (bpow radix2 32). rewrite <- bpow_plus. reflexivity. }
  assert (S : (B2R x * IZR (2 ^ 32) + / 2 = IZR (z * 2 ^ 32) + (f * IZR (2 ^ 32) + / 2))%R) by (unfold f; rewrite mult_IZR; ring).
  case Rlt_bool_spec; intros C.
  - assert (V : (f * IZR (2 ^ 32) + / 2 < IZR (2 ^ 32))%R) by nra.
    assert (W : Zfloor (f * IZR (2 ^ 32) + / 2)%R < 2 ^ 32) by (apply lt_IZR; eapply Rle_lt_trans; [apply Zfloor_lb|exact V]).
    assert (W0 : 0 <= Zfloor (f * IZR (2 ^ 32) + / 2)%R) by (apply Zfloor_lub; cbn; nra).
    replace (Zfloor (f * IZR (2 ^ 32) + / 2)%R <? 2 ^ 32) with true by lia. cbn [bind]. f_equal.
    rewrite Z.shiftl_mul_pow2 by lia. rewrite Z.mod_small by lia.
    symmetry. rewrite S. pose proof (Zfloor_lb (f * IZR (2 ^ 32) + / 2)%R). pose proof (Zfloor_ub (f * IZR (2 ^ 32) + / 2)%R).
    apply Zfloor_imp. rewrite !plus_IZR. lra.
  - assert (V : (IZR (2 ^ 32) <= f * IZR (2 ^ 32) + / 2)%R) by nra.
    assert (W : 2 ^ 32 <= Zfloor (f * IZR (2 ^ 32) + / 2)%R) by now apply Zfloor_lub.
    replace (Zfloor (f * IZR (2 ^ 32) + / 2)%R <? 2 ^ 32) with false by lia. reflexivity.
Qed.
