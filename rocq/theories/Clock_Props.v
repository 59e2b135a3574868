(** C44: the Tfrac conversions of Clock, with the double arithmetic the code uses. *)
From Coq Require Import ZArith Bool Reals Lra Lia Psatz.
From Flocq Require Import Core BinarySingleNaN.
From Verif Require Import Common Double64 Clock_Model Clock_Proofs.
Local Open Scope Z_scope.

Lemma join_low s l : 0 <= l < 2 ^ 32 -> (s * 2 ^ 32 + l) mod 2 ^ 32 = l.
Proof. intros H. rewrite Z.add_comm, Z.mod_add by lia. now apply Z.mod_small. Qed.
Lemma join_high s l : 0 <= l < 2 ^ 32 -> (s * 2 ^ 32 + l) / 2 ^ 32 = s.
Proof. intros H. rewrite Z.add_comm, Z.div_add by lia. rewrite Z.div_small by exact H. lia. Qed.

Lemma ok_inj (a b : Z) : Ok a = Ok b -> b = a.
Proof. congruence. Qed.

(** Every 32-bit number of seconds with every number of microseconds comes back from
    its Tfrac, also as a struct timeval and as a count of microseconds. *)
Theorem C44_micro_roundtrip : forall s us, 0 <= s < 2 ^ 32 -> 0 <= us < 10 ^ 6 ->
  exists t, secMicroToTfrac s us = Ok t /\ 0 <= t < 2 ^ 64 /\
    TfracToSec t = s /\ TfracToMicroSec t = Ok us /\ TfracToNanoSec t = Ok (us * 1000) /\
    TfracToStructTimeval t = Ok (s, us) /\ TfracToTll t = Ok (s * 10 ^ 6 + us).
Proof.
  intros s us Hs Hu. exists (s * 2 ^ 32 + fracs us (10 ^ 6)). pose proof (fracs_range us (10 ^ 6) Hu ltac:(lia)) as R.
  assert (B : 0 <= s * 2 ^ 32 + fracs us (10 ^ 6) < 2 ^ 64) by lia.
  assert (S : TfracToSec (s * 2 ^ 32 + fracs us (10 ^ 6)) = s) by (rewrite sec_spec by exact B; now apply join_high).
  assert (M : TfracToMicroSec (s * 2 ^ 32 + fracs us (10 ^ 6)) = Ok us) by (rewrite micro_extract by lia; rewrite join_low by exact R; f_equal; apply fracs_back; lia).
  split; [now apply micro_exact|]. split; [exact B|]. split; [exact S|]. split; [exact M|]. split.
  - rewrite nano_extract by lia. rewrite join_low by exact R. f_equal. replace (fracs us (10 ^ 6)) with (fracs (us * 1000) (10 ^ 6 * 1000)) by (apply fracs_scale; lia). apply (fracs_back (us * 1000) (10 ^ 9)). lia.
  - unfold TfracToStructTimeval, TfracToTll. rewrite M, S. auto.
Qed.
Print Assumptions C44_micro_roundtrip.

(** The same for nanoseconds. *)
Theorem C44_nano_roundtrip : forall s ns, 0 <= s < 2 ^ 32 -> 0 <= ns < 10 ^ 9 ->
  exists t, secNanoToTfrac s ns = Ok t /\ 0 <= t < 2 ^ 64 /\ TfracToSec t = s /\ TfracToNanoSec t = Ok ns /\ TfracToMicroSec t = Ok (ns / 1000).
Proof.
  intros s ns Hs Hu. exists (s * 2 ^ 32 + fracs ns (10 ^ 9)). pose proof (fracs_range ns (10 ^ 9) Hu ltac:(lia)) as R.
  assert (B : 0 <= s * 2 ^ 32 + fracs ns (10 ^ 9) < 2 ^ 64) by lia.
  split; [now apply nano_exact|]. split; [exact B|]. split; [rewrite sec_spec by exact B; now apply join_high|]. split.
  - rewrite nano_extract by lia. rewrite join_low by exact R. f_equal. apply fracs_back. lia.
  - rewrite micro_extract by lia. rewrite join_low by exact R. f_equal. pose proof (fracs_bounds ns (10 ^ 9) ltac:(lia)) as FB. set (f := fracs ns (10 ^ 9)) in *. symmetry.
    pose proof (Z.div_mod ns 1000 ltac:(lia)). pose proof (Z.mod_pos_bound ns 1000 ltac:(lia)). set (q := ns / 1000) in *.
    apply Z.div_unique with (f * 10 ^ 6 - q * 2 ^ 32); lia.
Qed.
Print Assumptions C44_nano_roundtrip.

(** A Tfrac made from microseconds is the one made from as many nanoseconds; the
    conversion is strictly increasing; and it is the least Tfrac not before the given
    time. *)
Theorem C44_same_instant : forall s us, 0 <= s < 2 ^ 32 -> 0 <= us < 10 ^ 6 -> secMicroToTfrac s us = secNanoToTfrac s (us * 1000).
Proof.
  intros s us Hs Hu. rewrite micro_exact, nano_exact by lia. do 2 f_equal. symmetry. apply (fracs_scale us (10 ^ 6) 1000); lia.
Qed.
Print Assumptions C44_same_instant.
Theorem C44_monotone : forall s ns s' ns' t t', 0 <= s < 2 ^ 32 -> 0 <= ns < 10 ^ 9 -> 0 <= s' < 2 ^ 32 -> 0 <= ns' < 10 ^ 9 ->
  secNanoToTfrac s ns = Ok t -> secNanoToTfrac s' ns' = Ok t' ->
  (t < t' <-> s < s' \/ s = s' /\ ns < ns').
Proof.
  intros s ns s' ns' t t' Hs Hn Hs' Hn' E E'. rewrite nano_exact in E, E' by assumption. apply ok_inj in E, E'. subst t t'.
  pose proof (fracs_range ns (10 ^ 9) Hn ltac:(lia)) as R. pose proof (fracs_range ns' (10 ^ 9) Hn' ltac:(lia)) as R'.
  assert (L := fracs_lt ns ns' (10 ^ 9) ltac:(lia)). assert (L' := fracs_lt ns' ns (10 ^ 9) ltac:(lia)).
  destruct (Z.lt_trichotomy ns ns') as [C|[C|C]]; [specialize (L C)|subst ns'|specialize (L' C)]; lia.
Qed.
Print Assumptions C44_monotone.
Theorem C44_least_tfrac : forall s ns t, 0 <= s < 2 ^ 32 -> 0 <= ns < 10 ^ 9 -> secNanoToTfrac s ns = Ok t ->
  (t - 1) * 10 ^ 9 < (s * 10 ^ 9 + ns) * 2 ^ 32 <= t * 10 ^ 9.
Proof.
  intros s ns t Hs Hn E. rewrite nano_exact in E by assumption. apply ok_inj in E. subst t. pose proof (fracs_bounds ns (10 ^ 9) ltac:(lia)). lia.
Qed.
Print Assumptions C44_least_tfrac.

(** For every Tfrac, made in whatever way: the parts extracted are the whole seconds, and
    the whole microseconds or nanoseconds that fit in the rest. *)
Theorem C44_extraction : forall t, 0 <= t < 2 ^ 64 ->
  exists s us ns, TfracToSec t = s /\ TfracToMicroSec t = Ok us /\ TfracToNanoSec t = Ok ns /\
    0 <= s < 2 ^ 32 /\ 0 <= us < 10 ^ 6 /\ 0 <= ns < 10 ^ 9 /\
    (s * 10 ^ 6 + us) * 2 ^ 32 <= t * 10 ^ 6 < (s * 10 ^ 6 + us + 1) * 2 ^ 32 /\
    (s * 10 ^ 9 + ns) * 2 ^ 32 <= t * 10 ^ 9 < (s * 10 ^ 9 + ns + 1) * 2 ^ 32.
Proof.
  intros t H. exists (t / 2 ^ 32), (t mod 2 ^ 32 * 10 ^ 6 / 2 ^ 32), (t mod 2 ^ 32 * 10 ^ 9 / 2 ^ 32).
  split; [now apply sec_spec|]. split; [apply micro_extract; lia|]. split; [apply nano_extract; lia|].
  pose proof (Z.div_mod t (2 ^ 32) ltac:(lia)) as M. pose proof (Z.mod_pos_bound t (2 ^ 32) ltac:(lia)) as MB. set (s := t / 2 ^ 32) in *. set (l := t mod 2 ^ 32) in *.
  pose proof (Z.div_mod (l * 10 ^ 6) (2 ^ 32) ltac:(lia)) as M6. pose proof (Z.mod_pos_bound (l * 10 ^ 6) (2 ^ 32) ltac:(lia)) as MB6. set (u := l * 10 ^ 6 / 2 ^ 32) in *.
  pose proof (Z.div_mod (l * 10 ^ 9) (2 ^ 32) ltac:(lia)) as M9. pose proof (Z.mod_pos_bound (l * 10 ^ 9) (2 ^ 32) ltac:(lia)) as MB9. set (n := l * 10 ^ 9 / 2 ^ 32) in *.
  lia.
Qed.
Print Assumptions C44_extraction.

(** As seconds: TfracToDouble is the double nearest to the time, so it keeps the order,
    and below 2^53 it is exact and converts back. *)
Theorem C44_to_double : forall t, 0 <= t < 2 ^ 64 ->
  is_finite (TfracToDouble t) = true /\ B2R (TfracToDouble t) = rnd (IZR t / IZR (2 ^ 32)) /\
  (forall t', t <= t' < 2 ^ 64 -> (B2R (TfracToDouble t) <= B2R (TfracToDouble t'))%R).
Proof.
  intros t H. destruct (of_Tfrac t H) as (E & F). split; [exact F|]. split; [exact E|].
  intros t' H'. destruct (of_Tfrac t' ltac:(lia)) as (E' & _). rewrite E, E'. apply rnd_le.
  apply Rmult_le_compat_r; [left; apply Rinv_0_lt_compat, IZR_lt; lia|apply IZR_le; lia].
Qed.
Print Assumptions C44_to_double.
Theorem C44_double_roundtrip : forall t, 0 <= t < 2 ^ 53 ->
  B2R (TfracToDouble t) = (IZR t / IZR (2 ^ 32))%R /\ secondsToTfrac (TfracToDouble t) = Ok t.
Proof.
  intros t H. pose proof (of_Tfrac_exact t H) as E. destruct (of_Tfrac t ltac:(lia)) as (_ & F). split; [exact E|].
  assert (C32 : (0 < IZR (2 ^ 32))%R) by (apply IZR_lt; lia).
  rewrite seconds_exact; [|exact F|rewrite E; split; [apply quot_nonneg; lia|apply quot_lt; lia]]. rewrite E. rewrite floor_quot by lia.
  assert (Q : (IZR t / IZR (2 ^ 32) - IZR (t / 2 ^ 32) = IZR (t mod 2 ^ 32) / IZR (2 ^ 32))%R).
  { rewrite (Z.div_mod t (2 ^ 32)) at 1 by lia. rewrite plus_IZR, mult_IZR. field. lra. }
  rewrite Q, Rlt_bool_true.
  - f_equal. replace (IZR t / IZR (2 ^ 32) * IZR (2 ^ 32))%R with (IZR t) by (field; lra). apply Zfloor_imp. rewrite plus_IZR. lra.
  - apply Rmult_lt_reg_r with (IZR (2 ^ 32)); [exact C32|]. unfold Rdiv. rewrite Rmult_assoc, Rinv_l, Rmult_1_r, Rmult_minus_distr_r, Rmult_1_l by lra.
    replace (bpow radix2 (-33) * IZR (2 ^ 32))%R with (/ 2)%R by (change (IZR (2 ^ 32)) with (bpow radix2 32); rewrite <- bpow_plus; reflexivity).
    pose proof (Z.mod_pos_bound t (2 ^ 32) ltac:(lia)) as MB. assert (L : t mod 2 ^ 32 <= 2 ^ 32 - 1) by lia. apply IZR_le in L. rewrite minus_IZR in L. lra.
Qed.
Print Assumptions C44_double_roundtrip.

(** secondsToTfrac of every double: within half a Tfrac of the argument, unless the
    fraction of a second is so close to one that it rounds up to a whole second, where
    the conversion to uint32_t is undefined. Other doubles abort or are undefined. *)
Theorem C44_seconds_nearest : forall x : double, is_finite x = true -> (0 <= B2R x < IZR (2 ^ 32 - 1))%R ->
  (B2R x - IZR (Zfloor (B2R x)) < 1 - bpow radix2 (-33))%R ->
  exists t, secondsToTfrac x = Ok t /\ 0 <= t < 2 ^ 64 /\ (- / 2 <= B2R x * IZR (2 ^ 32) - IZR t < / 2)%R.
Proof.
  intros x F H L. rewrite seconds_exact by assumption. rewrite Rlt_bool_true by exact L. eexists. split; [reflexivity|].
  set (v := (B2R x * IZR (2 ^ 32) + / 2)%R). pose proof (Zfloor_lb v) as A. pose proof (Zfloor_ub v) as B.
  assert (C32 : (0 < IZR (2 ^ 32))%R) by (apply IZR_lt; lia).
  split; [|unfold v in *; lra]. split; [apply Zfloor_lub; unfold v; cbn; nra|].
  apply lt_IZR. eapply Rle_lt_trans; [exact A|]. unfold v. apply Rlt_le_trans with (IZR ((2 ^ 32 - 1) * 2 ^ 32 + 1)); [|apply IZR_le; lia].
  rewrite plus_IZR, mult_IZR. nra.
Qed.
Print Assumptions C44_seconds_nearest.
Theorem C44_seconds_out_of_range : forall x : double,
  (is_finite x = true -> (B2R x < 0)%R -> secondsToTfrac x = UB) /\
  (is_finite x = true -> (IZR (2 ^ 32 - 1) <= B2R x)%R -> secondsToTfrac x = Abort) /\
  (is_nan x = true -> secondsToTfrac x = Abort) /\
  (is_finite x = true -> (0 <= B2R x < IZR (2 ^ 32 - 1))%R -> (1 - bpow radix2 (-33) <= B2R x - IZR (Zfloor (B2R x)))%R -> secondsToTfrac x = UB).
Proof.
  intros x. destruct (of_Z_exact (2 ^ 32 - 1)) as (Em & Fm); [lia|]. assert (C : (0 < IZR (2 ^ 32 - 1))%R) by (apply IZR_lt; lia).
  split; [|split; [|split]].
  - intros F H. unfold secondsToTfrac. rewrite bltb_R by auto. rewrite Em, Rlt_bool_true by lra. cbn [negb]. unfold floor_to_unsigned. rewrite F. cbv zeta.
    assert (T : Btrunc x = Zceil (B2R x)).
    { pose proof (Btrunc_correct 53 1024 prec_lt_emax_53 x) as B. apply eq_IZR. rewrite B. unfold round, F2R, scaled_mantissa, cexp, FIX_exp. cbn. rewrite !Rmult_1_r. f_equal. apply Ztrunc_ceil. lra. }
    rewrite T. assert (T0 : Zceil (B2R x) <= 0) by (apply Zceil_glb; cbn; lra).
    destruct (Z.eq_dec (Zceil (B2R x)) 0) as [Z0|NZ].
    + rewrite Z0. destruct (of_Z_exact 0) as (E0 & F0); [lia|]. rewrite bltb_R by auto. rewrite E0, Rlt_bool_true by exact H. reflexivity.
    + destruct (Bltb x (of_Z (Zceil (B2R x)))); [replace (0 <=? Zceil (B2R x) - 1) with false by lia|replace (0 <=? Zceil (B2R x)) with false by lia]; reflexivity.
  - intros F H. unfold secondsToTfrac. rewrite bltb_R by auto. rewrite Em, Rlt_bool_false by exact H. reflexivity.
  - intros N. destruct x; try discriminate. reflexivity.
  - intros F H L. rewrite seconds_exact by assumption. now rewrite Rlt_bool_false by exact L.
Qed.
Print Assumptions C44_seconds_out_of_range.
(** The last case happens: the double just below one second. *)
Theorem C44_seconds_refuted : exists x : double, is_finite x = true /\ (0 <= B2R x < 1)%R /\ secondsToTfrac x = UB.
Proof.
  exists (ddiv (of_Z (2 ^ 53 - 1)) (of_Z (2 ^ 53))). destruct (of_Z_exact (2 ^ 53 - 1)) as (E1 & F1); [lia|]. destruct (of_Z_exact (2 ^ 53)) as (E2 & F2); [lia|].
  assert (C : (0 < IZR (2 ^ 53))%R) by (apply IZR_lt; lia).
  assert (L : (0 <= IZR (2 ^ 53 - 1) / IZR (2 ^ 53) < 1)%R) by (split; [apply quot_nonneg; lia|apply (quot_lt _ _ 1); lia]).
  destruct (ddiv_spec (of_Z (2 ^ 53 - 1)) (of_Z (2 ^ 53)) 0 F1) as (E & F); [rewrite E2; lra|lia|rewrite E1, E2, Rabs_pos_eq by lra; change (bpow radix2 0) with 1%R; lra|].
  rewrite E1, E2 in E. rewrite rnd_id in E by (apply (fmt_F2R (2 ^ 53 - 1) (-53)); lia).
  split; [exact F|]. split; [rewrite E; exact L|]. vm_compute. reflexivity.
Qed.
Print Assumptions C44_seconds_refuted.

(** Moving a Tfrac by a number of seconds: by the Tfrac nearest to the magnitude,
    forwards or backwards, around 2^64. *)
Theorem C44_offset : forall t (x : double) d, 0 <= t < 2 ^ 64 -> secondsToTfrac x = Ok d -> is_finite x = true -> (0 < B2R x)%R ->
  TfracOffsetDouble t x = Ok ((t + d) mod 2 ^ 64) /\
  (d <> 2 ^ 63 -> TfracOffsetDouble t (Bopp x) = Ok ((t - d) mod 2 ^ 64)).
Proof.
  intros t x d Ht E F P. unfold TfracOffsetDouble. destruct (of_Z_exact 0) as (E0 & F0); [lia|].
  assert (Fo : is_finite (Bopp x) = true) by (rewrite is_finite_Bopp; exact F).
  rewrite !bltb_R by auto. rewrite E0, B2R_Bopp. rewrite Rlt_bool_false by lra. rewrite Rlt_bool_true by lra.
  rewrite Bopp_involutive. rewrite E. cbn [bind andb]. split; [reflexivity|]. intros N. replace (d =? 2 ^ 63) with false by lia. reflexivity.
Qed.
Print Assumptions C44_offset.
(** Signed differences of Tfracs as seconds: the sign is kept. *)
Theorem C44_signed_double : forall i, - 2 ^ 63 < i < 2 ^ 63 -> exists x, int64TfracToDouble i = Ok x /\ is_finite x = true /\ B2R x = rnd (IZR i / IZR (2 ^ 32)).
Proof.
  intros i H. unfold int64TfracToDouble. destruct (Z_le_gt_dec 0 i) as [P|P].
  - replace (0 <=? i) with true by lia. destruct (of_Tfrac i) as (E & F); [lia|]. eauto.
  - replace (0 <=? i) with false by lia. replace (i =? - 2 ^ 63) with false by lia. destruct (of_Tfrac (- i)) as (E & F); [lia|].
    eexists. split; [reflexivity|]. split; [now rewrite is_finite_Bopp|]. rewrite B2R_Bopp, E, opp_IZR.
    unfold Rdiv. rewrite Ropp_mult_distr_l_reverse. unfold rnd. rewrite round_NE_opp. lra.
Qed.
Print Assumptions C44_signed_double.

(** Cases with uneven fractions. *)
Example C44_run : secMicroToTfrac 5 999999 = Ok 25769799482 /\ secNanoToTfrac (2 ^ 32 - 1) 999999999 = Ok 18446744073709551612 /\
  TfracToNanoSec 18446744073709551612 = Ok 999999999 /\ TfracToTll 25769799482 = Ok 5999999 /\
  secondsToTfrac (ddiv (of_Z 7) (of_Z 3)) = Ok 10021590357 /\
  TfracOffsetDouble 25769799482 (Bopp (ddiv (of_Z 7) (of_Z 3))) = Ok (25769799482 - 10021590357) /\
  secondsToTfrac (TfracToDouble 25769799482) = Ok 25769799482.
Proof. vm_compute. repeat split; reflexivity. Qed.
