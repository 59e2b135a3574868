(** C89: the standard deviation and the confidence interval of Stats, in doubles. *)
From Coq Require Import List ZArith Reals Lia Lra.
From Flocq Require Import Core BinarySingleNaN.
From Verif Require Import Common Double64 Arith Stats_Spec Stats_DSpec Stats_DProofs Stats_Model StatsDev_Model StatsDev_Spec StatsDev_Proofs.
Import ListNotations.
Local Open Scope R_scope.

Notation run ops i := (st_run ieee (fun x : double => x) ops i).

(** After every program of adds, merges and resets over any number of objects, an object
    that stands for finite samples no larger than 2^e reports a mean no larger than 2^e and
    a standard deviation and a confidence interval that are finite and not negative, the
    former no larger than 2^e, however its variance was rounded. *)
Theorem C89_finite_partial : forall (ops : list (op double)) (i : nat) (e : Z),
  let l := samples ops i in let s := run ops i in let B := bpow radix2 e in
  (-500 <= e <= 480)%Z -> within e l -> l <> [] -> (Z.of_nat (length l) <= 2 ^ 53)%Z ->
  is_finite (st_mean ieee s) = true /\ Rabs (B2R (st_mean ieee s)) <= B /\
  is_finite (st_variance ieee s) = true /\ Rabs (B2R (st_variance ieee s)) <= B * B /\
  is_finite (sd_stddev s) = true /\ 0 <= B2R (sd_stddev s) <= B /\
  is_finite (sd_conf95 s) = true /\ 0 <= B2R (sd_conf95 s) <= 2 * B.
Proof.
  intros ops i e l s B He W N L. pose proof (run_reps e He ops i) as R. fold s l in R.
  destruct (mean_ok e He s l R W N L) as (A1 & A2 & _). destruct (variance_ok e He s l R W N L) as (V1 & _ & V2 & _).
  destruct (stddev_ok e He s l R W N L) as (D1 & D2 & _). destruct (conf95_ok e He s l R W N L) as (C1 & C2 & _).
  rewrite (B2_eq e) in V2. auto 10.
Qed.
Print Assumptions C89_finite_partial.

(** ... and these are the mean, the variance, the standard deviation and the confidence
    interval of its samples, up to rounding errors that grow with the number of samples and
    are relative to the largest sample. *)
Theorem C89_accuracy_partial : forall (ops : list (op double)) (i : nat) (e : Z),
  let l := samples ops i in let s := run ops i in let B := bpow radix2 e in
  let xs := reals_of l in let n := rlen l in
  (-500 <= e <= 480)%Z -> within e l -> l <> [] -> (Z.of_nat (length l) <= 2 ^ 53)%Z ->
  Rabs (B2R (st_mean ieee s) - rmean xs) <= (n + 1) * (ulp1 * B) /\
  Rabs (B2R (st_variance ieee s) - rvar xs) <= (3 * n + 6) * (ulp1 * (B * B)) /\
  Rabs (B2R (sd_stddev s) * B2R (sd_stddev s) - rvar xs) <= (3 * n + 8) * (ulp1 * (B * B)) /\
  Rabs (B2R (sd_conf95 s) - 196 / 100 * B2R (sd_stddev s) / sqrt n) <= 7 * (ulp1 * B).
Proof.
  intros ops i e l s B xs n He W N L. pose proof (run_reps e He ops i) as R. fold s l in R.
  destruct (mean_ok e He s l R W N L) as (_ & _ & A). destruct (variance_ok e He s l R W N L) as (_ & _ & _ & V).
  destruct (stddev_ok e He s l R W N L) as (_ & _ & D). destruct (conf95_ok e He s l R W N L) as (_ & _ & C).
  rewrite (B2_eq e) in V, D. auto.
Qed.
Print Assumptions C89_accuracy_partial.

(** A single sample, however it got there, is its own mean and deviates by nothing. *)
Theorem C89_single : forall (ops : list (op double)) (i : nat) (x : double),
  let s := run ops i in
  samples ops i = [x] -> is_finite x = true -> Rabs (B2R x) <= bpow radix2 511 ->
  is_finite (st_mean ieee s) = true /\ B2R (st_mean ieee s) = B2R x /\
  is_finite (sd_stddev s) = true /\ B2R (sd_stddev s) = 0 /\
  is_finite (sd_conf95 s) = true /\ B2R (sd_conf95 s) = 0.
Proof.
  intros ops i x s E F H. pose proof (run_rep1 ops i) as R. fold s in R. rewrite E in R.
  destruct (rep1_query s x R (conj F H)) as (M1 & M2 & V). destruct R as [N _]. change (number s = 1%Z) in N.
  destruct (zero_conf s) as [C1 C2]; [lia|exact V|]. rewrite (zero_stddev s V). destruct (of_Z_spec 0 ltac:(lia)) as [E0 F0]. rewrite rnd_0 in E0. auto 10.
Qed.
Print Assumptions C89_single.

(** Integer samples that are all equal deviate by nothing while the sum of their squares is
    at most 2^53. *)
Theorem C89_equal_integers : forall (ops : list (op Z)) (i : nat) (z : Z),
  let l := samples ops i in let s := st_run ieee of_Z ops i in
  l <> [] -> Forall (fun x => x = z) l -> (z * z * Z.of_nat (length l) <= 2 ^ 53)%Z -> (Z.of_nat (length l) <= 2 ^ 53)%Z ->
  is_int (st_mean ieee s) z /\ is_int (sd_stddev s) 0 /\ is_int (sd_conf95 s) 0.
Proof.
  intros ops i z l s N F Q L. destruct (sum_repeat z l F) as [S1 S2].
  assert (P : (1 <= Z.of_nat (length l))%Z) by (destruct l; [now destruct N|cbn [length]; lia]).
  assert (I : is_int (sum s) (zsum l) /\ is_int (sumsq s) (zsumsq l)).
  { apply (irun_rep ops i). fold l. rewrite S2. exact Q. }
  destruct I as [I1 I2]. rewrite S1 in I1. rewrite S2 in I2.
  assert (K : number s = Z.of_nat (length l)). { unfold s. rewrite run_number. apply Z.mod_small. fold l. lia. }
  destruct (equal_ints s z _ K I1 I2) as [M V]; [lia| |].
  { apply Z.le_trans with (z * z * Z.of_nat (length l))%Z; [|exact Q]. rewrite <- (Z.mul_1_r (z * z)) at 1. apply Z.mul_le_mono_nonneg_l; [apply Z.square_nonneg|exact P]. }
  split; [exact M|]. rewrite (zero_stddev s V). split; [apply (is_int_of_Z 0); lia|]. apply zero_conf; [rewrite K; lia|exact V].
Qed.
Print Assumptions C89_equal_integers.

(** Without samples: no deviation, and an interval that is as wide as can be. *)
Theorem C89_no_samples : forall (ops : list (op double)) (i : nat), let s := run ops i in
  samples ops i = [] ->
  st_mean ieee s = of_Z 0 /\ sd_stddev s = of_Z 0 /\
  is_finite (sd_conf95 s) = true /\ (forall x : double, is_finite x = true -> B2R x <= B2R (sd_conf95 s)) /\
  sd_relconf95 s = B754_infinity false.
Proof.
  intros ops i s E. assert (N : number s = 0%Z) by (unfold s; rewrite run_number, E; reflexivity).
  assert (M : st_mean ieee s = of_Z 0) by (unfold st_mean; now rewrite N).
  assert (C : sd_conf95 s = dbl_max) by (unfold sd_conf95; now rewrite N).
  split; [exact M|]. split; [unfold sd_stddev, st_variance; rewrite N; vm_compute; reflexivity|]. rewrite C.
  destruct dbl_max_spec as [X1 X2]. split; [exact X1|]. split; [exact X2|].
  unfold sd_relconf95. rewrite C, M. vm_compute. reflexivity.
Qed.
Print Assumptions C89_no_samples.

(** A double from an integer and an exponent. *)
Notation dbl m e := (binary_normalize 53 1024 prec_gt_0_53 prec_lt_emax_53 mode_NE m e false).

(** Large samples: one sample of 2^512, which is finite, has a standard deviation that is
    not a number, because its square is infinite. *)
Theorem C89_overflow_refuted : exists x : double, is_finite x = true /\
  let s := run [OAdd 0 x] 0%nat in
  is_finite (st_mean ieee s) = true /\ is_nan (sd_stddev s) = true /\ is_nan (sd_conf95 s) = true.
Proof. exists (dbl 1 512). vm_compute. auto. Qed.
Print Assumptions C89_overflow_refuted.

(** Equal samples: six times 0.1 has a mean below all of its samples and a standard deviation
    above zero. *)
Theorem C89_equal_samples_refuted : exists x : double, is_finite x = true /\
  let s := run (repeat (OAdd 0 x) 6) 0%nat in
  Bltb (st_mean ieee s) (min_value s) = true /\ Bltb (of_Z 0) (sd_stddev s) = true.
Proof. exists (dbl 7205759403792794 (-56)). vm_compute. auto. Qed.
Print Assumptions C89_equal_samples_refuted.

(** Close samples: 10^8 and 10^8 + 1 differ, but have no standard deviation; the error bound
    of C89_accuracy_partial is relative to the samples, not to how far they are apart. *)
Theorem C89_cancellation_refuted :
  let s := run [OAdd 0 (of_Z 100000000); OAdd 0 (of_Z 100000001)] 0%nat in
  Bltb (min_value s) (max_value s) = true /\ sd_stddev s = of_Z 0.
Proof. vm_compute. auto. Qed.
Print Assumptions C89_cancellation_refuted.

(** The relative interval of negative samples is negative, and of a sample of 0 not a number. *)
Theorem C89_relative_refuted :
  Bltb (sd_relconf95 (run [OAdd 0 (of_Z (-1)); OAdd 0 (of_Z (-3))] 0%nat)) (of_Z 0) = true /\
  is_nan (sd_relconf95 (run [OAdd 0 (of_Z 0)] 0%nat)) = true.
Proof. vm_compute. auto. Qed.
Print Assumptions C89_relative_refuted.

(** resets() is one more than the number of calls of reset(). *)
Theorem C89_resets : forall X (ops : list (op X)) i, rc_run ops i = ((1 + resets_called ops i) mod 2 ^ 32)%Z.
Proof. exact rc_count. Qed.
Print Assumptions C89_resets.

Example C89_example :
  let ops := [OAdd 0 (of_Z 3); OAdd 1 (of_Z (-4)); OReset 2; OMerge 0 1] in
  within 3 (samples ops 0%nat) /\ samples ops 0%nat <> [] /\ (Z.of_nat (length (samples ops 0%nat)) <= 2 ^ 53)%Z /\
  Beqb (sd_stddev (run ops 0%nat)) (dbl 7 (-1)) = true /\ resets_called ops 2 = 1%Z.
Proof.
  cbv zeta. split; [|split; [discriminate|split; [cbn; lia|split; vm_compute; reflexivity]]].
  assert (A : forall z, (Z.abs z <= 8)%Z -> is_finite (of_Z z) = true /\ Rabs (B2R (of_Z z)) <= bpow radix2 3).
  { intros z H. destruct (of_Z_spec z ltac:(lia)) as [E F]. split; [exact F|]. rewrite E, rnd_Z by lia. rewrite <- abs_IZR. change (bpow radix2 3) with (IZR 8). now apply IZR_le. }
  apply Forall_cons; [apply A; lia|]. apply Forall_cons; [apply A; lia|]. apply Forall_nil.
Qed.
Example C89_example_single : samples [OAdd 1 (of_Z 7); OMerge 0 1; OMerge 0 2] 0 = [of_Z 7] /\ Rabs (B2R (of_Z 7)) <= bpow radix2 511.
Proof.
  split; [reflexivity|]. destruct (of_Z_spec 7 ltac:(lia)) as [E F]. rewrite E, rnd_Z by lia. rewrite <- abs_IZR.
  apply Rle_trans with (bpow radix2 3); [change (bpow radix2 3) with (IZR 8); apply IZR_le; cbn; lia|apply bpow_le; lia].
Qed.
Example C89_example_equal : let l := samples [OAdd 0 5; OAdd 1 5; OMerge 0 1; OMerge 0 0]%Z 0%nat in
  l <> [] /\ Forall (fun x => x = 5%Z) l /\ (5 * 5 * Z.of_nat (length l) <= 2 ^ 53)%Z.
Proof. cbv. repeat split; try discriminate. repeat constructor. Qed.
