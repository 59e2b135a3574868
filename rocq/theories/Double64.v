(** IEEE 754 double precision, from Flocq (round to nearest even, x86-64 SSE). *)
From Coq Require Import ZArith Bool Reals Lra Lia Psatz.
From Flocq Require Import Core BinarySingleNaN.
From Verif Require Import Common.
Local Open Scope Z_scope.

Definition prec_gt_0_53 : Prec_gt_0 53 := eq_refl.
Definition prec_lt_emax_53 : Prec_lt_emax 53 1024 := eq_refl.
#[global] Existing Instances prec_gt_0_53 prec_lt_emax_53.

Notation double := (binary_float 53 1024).
(** Conversion of an integer to double. *)
Definition of_Z (z : Z) : double := binary_normalize 53 1024 prec_gt_0_53 prec_lt_emax_53 mode_NE z 0 false.
Definition dmul (x y : double) : double := Bmult mode_NE x y.
Definition ddiv (x y : double) : double := Bdiv mode_NE x y.
Definition dadd (x y : double) : double := Bplus mode_NE x y.
Definition dsub (x y : double) : double := Bminus mode_NE x y.
(** Conversion of a double to an unsigned integer of [bits] bits: towards zero;
    undefined when the truncated value does not fit. *)
Definition to_unsigned (bits : Z) (x : double) : res Z :=
  if is_finite x then
    let z := Btrunc x in if (0 <=? z) && (z <? 2 ^ bits) then Ok z else UB
  else UB.

Notation fexp64 := (SpecFloat.fexp 53 1024).
(** Rounding a real number to double. *)
Definition rnd (x : R) : R := round radix2 fexp64 ZnearestE x.

Lemma rnd_le : forall x y, (x <= y)%R -> (rnd x <= rnd y)%R.
Proof. intros. apply round_le; [apply FLT_exp_valid; reflexivity|apply valid_rnd_N|assumption]. Qed.
Lemma rnd_0 : rnd 0 = 0%R.
Proof. apply round_0. apply valid_rnd_N. Qed.
Lemma fmt_F2R : forall m e, Z.abs m < 2 ^ 53 -> -1074 <= e -> generic_format radix2 fexp64 (IZR m * bpow radix2 e).
Proof.
  intros m e H He. change fexp64 with (FLT_exp (-1074) 53). apply generic_format_FLT.
  apply (FLT_spec radix2 (-1074) 53 _ (Float radix2 m e)); [reflexivity|exact H|exact He].
Qed.
Lemma fmt_Z : forall z, Z.abs z <= 2 ^ 53 -> generic_format radix2 fexp64 (IZR z).
Proof.
  intros z H. destruct (Z_lt_le_dec (Z.abs z) (2 ^ 53)) as [L|L].
  - replace (IZR z) with (IZR z * bpow radix2 0)%R by (cbn; lra). apply fmt_F2R; lia.
  - assert (E : z = (z / 2) * 2) by (Z.to_euclidean_division_equations; lia).
    replace (IZR z) with (IZR (z / 2) * bpow radix2 1)%R.
    + apply fmt_F2R; Z.to_euclidean_division_equations; lia.
    + rewrite E at 2. rewrite mult_IZR. reflexivity.
Qed.
Lemma rnd_id : forall x, generic_format radix2 fexp64 x -> rnd x = x.
Proof. intros x H. apply round_generic; [apply valid_rnd_N|exact H]. Qed.
Lemma rnd_Z : forall z, Z.abs z <= 2 ^ 53 -> rnd (IZR z) = IZR z.
Proof. intros z H. apply rnd_id. now apply fmt_Z. Qed.
Lemma fmt_bpow : forall e, -1074 <= e -> generic_format radix2 fexp64 (bpow radix2 e).
Proof. intros e H. change fexp64 with (FLT_exp (-1074) 53). now apply generic_format_FLT_bpow. Qed.
Lemma rnd_abs_le : forall x e, -1074 <= e -> (Rabs x <= bpow radix2 e)%R -> (Rabs (rnd x) <= bpow radix2 e)%R.
Proof.
  intros x e He H. apply abs_round_le_generic; [apply FLT_exp_valid; reflexivity|apply valid_rnd_N|now apply fmt_bpow|exact H].
Qed.
(** A small enough result does not overflow. *)
Lemma no_overflow : forall x e, -1074 <= e < 1024 -> (Rabs x <= bpow radix2 e)%R ->
  Rlt_bool (Rabs (round radix2 fexp64 (round_mode mode_NE) x)) (bpow radix2 1024) = true.
Proof.
  intros x e He H. apply Rlt_bool_true. apply Rle_lt_trans with (bpow radix2 e).
  - now apply (rnd_abs_le x e).
  - apply bpow_lt. lia.
Qed.
Lemma of_Z_spec : forall z, Z.abs z <= 2 ^ 64 -> B2R (of_Z z) = rnd (IZR z) /\ is_finite (of_Z z) = true.
Proof.
  intros z H. pose proof (binary_normalize_correct 53 1024 prec_gt_0_53 prec_lt_emax_53 mode_NE z 0 false) as B. cbv zeta in B.
  assert (E : F2R (Float radix2 z 0) = IZR z) by (unfold F2R; cbn; lra). rewrite E in B.
  rewrite (no_overflow _ 64) in B; [|lia|].
  - destruct B as (B1 & B2 & _). split; assumption.
  - rewrite <- abs_IZR. change (bpow radix2 64) with (IZR (2 ^ 64)). now apply IZR_le.
Qed.
Lemma dmul_spec : forall x y e, is_finite x = true -> is_finite y = true -> -1074 <= e < 1024 ->
  (Rabs (B2R x * B2R y) <= bpow radix2 e)%R ->
  B2R (dmul x y) = rnd (B2R x * B2R y) /\ is_finite (dmul x y) = true.
Proof.
  intros x y e Fx Fy He H. pose proof (Bmult_correct 53 1024 prec_gt_0_53 prec_lt_emax_53 mode_NE x y) as B.
  rewrite (no_overflow _ e) in B by assumption. destruct B as (B1 & B2 & _). unfold dmul. rewrite Fx, Fy in B2. split; assumption.
Qed.
Lemma ddiv_spec : forall x y e, is_finite x = true -> B2R y <> 0%R -> -1074 <= e < 1024 ->
  (Rabs (B2R x / B2R y) <= bpow radix2 e)%R ->
  B2R (ddiv x y) = rnd (B2R x / B2R y) /\ is_finite (ddiv x y) = true.
Proof.
  intros x y e Fx Ny He H. pose proof (Bdiv_correct 53 1024 prec_gt_0_53 prec_lt_emax_53 mode_NE x y Ny) as B.
  rewrite (no_overflow _ e) in B by assumption. destruct B as (B1 & B2 & _). unfold ddiv. rewrite Fx in B2. split; assumption.
Qed.
Lemma dadd_spec : forall x y e, is_finite x = true -> is_finite y = true -> -1074 <= e < 1024 ->
  (Rabs (B2R x + B2R y) <= bpow radix2 e)%R ->
  B2R (dadd x y) = rnd (B2R x + B2R y) /\ is_finite (dadd x y) = true.
Proof.
  intros x y e Fx Fy He H. pose proof (Bplus_correct 53 1024 prec_gt_0_53 prec_lt_emax_53 mode_NE x y Fx Fy) as B.
  rewrite (no_overflow _ e) in B by assumption. destruct B as (B1 & B2 & _). split; assumption.
Qed.
Lemma dsub_spec : forall x y e, is_finite x = true -> is_finite y = true -> -1074 <= e < 1024 ->
  (Rabs (B2R x - B2R y) <= bpow radix2 e)%R ->
  B2R (dsub x y) = rnd (B2R x - B2R y) /\ is_finite (dsub x y) = true.
Proof.
  intros x y e Fx Fy He H. pose proof (Bminus_correct 53 1024 prec_gt_0_53 prec_lt_emax_53 mode_NE x y Fx Fy) as B.
  rewrite (no_overflow _ e) in B by assumption. destruct B as (B1 & B2 & _). split; assumption.
Qed.
Lemma trunc_floor : forall x : double, (0 <= B2R x)%R -> Btrunc x = Zfloor (B2R x).
Proof.
  intros x H. pose proof (Btrunc_correct 53 1024 prec_lt_emax_53 x) as B. apply eq_IZR. rewrite B.
  unfold round, F2R, scaled_mantissa, cexp, FIX_exp. cbn. rewrite !Rmult_1_r. f_equal. now rewrite Ztrunc_floor.
Qed.
Lemma to_unsigned_spec : forall bits (x : double), is_finite x = true -> (0 <= B2R x < IZR (2 ^ bits))%R ->
  to_unsigned bits x = Ok (Zfloor (B2R x)) /\ 0 <= Zfloor (B2R x) < 2 ^ bits.
Proof.
  intros bits x F [H1 H2]. unfold to_unsigned. rewrite F, trunc_floor by assumption. cbv zeta.
  assert (0 <= Zfloor (B2R x)) by now apply Zfloor_lub.
  assert (Zfloor (B2R x) < 2 ^ bits) by (apply lt_IZR; eapply Rle_lt_trans; [apply Zfloor_lb|exact H2]).
  replace (0 <=? Zfloor (B2R x)) with true by lia. replace (Zfloor (B2R x) <? 2 ^ bits) with true by lia. auto.
Qed.
