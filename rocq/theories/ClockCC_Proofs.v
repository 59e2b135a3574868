(** Proofs about the cycle-counter clock. *)
From Coq Require Import List ZArith Reals Lra Lia Psatz Bool.
From Coq Require Import ZifyBool ZifyNat.
From Flocq Require Import Core BinarySingleNaN.
From Verif Require Import Common Double64 Clock_Model Clock_Proofs ClockCC_Model ClockCC_Spec.
Import ListNotations.
Local Open Scope Z_scope.

Lemma dmul_finite (a b : double) : is_finite (dmul a b) = true ->
  is_finite a = true /\ is_finite b = true /\ B2R (dmul a b) = rnd (B2R a * B2R b).
Proof.
  intros F. unfold dmul in *. assert (Fa : is_finite a = true /\ is_finite b = true).
  { destruct a as [sa|sa| |sa ma ea Ha], b as [sb|sb| |sb mb eb Hb]; try discriminate F; auto. }
  destruct Fa as (Fa & Fb). split; [exact Fa|]. split; [exact Fb|].
  pose proof (Bmult_correct 53 1024 prec_gt_0_53 prec_lt_emax_53 mode_NE a b) as B.
  destruct (Rlt_bool _ _); [now destruct B|].
  exfalso. destruct (Bmult mode_NE a b); try discriminate F; cbn in B; discriminate B.
Qed.
Lemma dmul_sign (a b : double) : is_nan (dmul a b) = false -> Bsign (dmul a b) = xorb (Bsign a) (Bsign b).
Proof.
  intros N. unfold dmul in *.
  destruct a as [sa|sa| |sa ma ea Ha]; destruct b as [sb|sb| |sb mb eb Hb]; try reflexivity; try discriminate N.
  pose proof (Bmult_correct 53 1024 prec_gt_0_53 prec_lt_emax_53 mode_NE (B754_finite sa ma ea Ha) (B754_finite sb mb eb Hb)) as B.
  destruct (Rlt_bool _ _); [destruct B as (_ & _ & B); now apply B|].
  destruct (Bmult mode_NE _ _); cbn in B; try discriminate B. injection B as ->. reflexivity.
Qed.
Lemma sign_nonneg (a : double) : Bsign a = false -> (0 <= B2R a)%R.
Proof.
  destruct a as [s|s| |s m e H]; cbn; try lra. intros ->. apply F2R_ge_0. cbn. lia.
Qed.
Lemma sign_pos (a : double) : (0 < B2R a)%R -> Bsign a = false.
Proof.
  destruct a as [s|s| |s m e H]; cbn; try lra. intros L. destruct s; [|reflexivity]. exfalso.
  assert (F2R (Float radix2 (cond_Zopp true (Z.pos m)) e) < 0)%R; [|lra]. apply F2R_lt_0. cbn. lia.
Qed.
Lemma bltb_not_nan (a b : double) : Bltb a b = true -> is_nan a = false /\ is_nan b = false.
Proof. destruct a as [s|s| |s m e H], b as [t|t| |t m' e' H']; cbn; intros X; try discriminate X; auto. Qed.
(** A product below 2^30 that was not computed from a negative number. *)
Lemma product_bound (y e : double) : Bltb (dmul y e) (of_Z (2 ^ 30)) = true -> Bsign y = false -> (1 <= B2R e)%R -> is_finite e = true ->
  is_finite y = true /\ (0 <= B2R y)%R /\ (B2R y * B2R e < IZR (2 ^ 30))%R.
Proof.
  intros L Sy E Fe. destruct (bltb_not_nan _ _ L) as (N & _). pose proof (dmul_sign y e N) as S. rewrite Sy, (sign_pos e) in S by lra. cbn in S.
  assert (F : is_finite (dmul y e) = true).
  { destruct (dmul y e) as [s|s| |s m x H]; try reflexivity; [|discriminate N]. cbn in S. subst s. vm_compute in L. discriminate L. }
  destruct (dmul_finite y e F) as (Fy & _ & V). split; [exact Fy|]. split; [now apply sign_nonneg|].
  assert (X : B2R (of_Z (2 ^ 30)) = IZR (2 ^ 30) /\ is_finite (of_Z (2 ^ 30)) = true) by (apply of_Z_exact; lia). destruct X as (X1 & X2).
  rewrite bltb_R in L by assumption. rewrite V, X1 in L. destruct (Rlt_bool_spec (rnd (B2R y * B2R e)) (IZR (2 ^ 30))) as [G|]; [|discriminate L].
  apply Rnot_le_lt. intros C. apply (Rlt_not_le _ _ G). rewrite <- (rnd_Z (2 ^ 30)) by lia. now apply rnd_le.
Qed.

(** The constants. *)
Definition tfrac_per_us : double := ddiv (of_Z 4294967296) (of_Z 1000000).
Lemma tfrac_per_us_spec : B2R tfrac_per_us = rnd (4294967296 / 1000000) /\ is_finite tfrac_per_us = true.
Proof.
  destruct (of_Z_exact 4294967296) as (A & FA); [lia|]. destruct (of_Z_exact 1000000) as (B & FB); [lia|].
  assert (X : (Rabs (B2R (of_Z 4294967296) / B2R (of_Z 1000000)) <= bpow radix2 13)%R).
  { rewrite A, B. change (bpow radix2 13) with 8192%R. rewrite Rabs_pos_eq; lra. }
  destruct (ddiv_spec (of_Z 4294967296) (of_Z 1000000) 13 FA) as (V & F); [rewrite B; lra|lia|exact X|]. unfold tfrac_per_us. rewrite V, A, B. auto.
Qed.
Lemma rnd_near x e : -1000 <= e <= 1000 -> (Rabs x <= bpow radix2 e)%R -> (x - bpow radix2 (e - 53) <= rnd x <= x + bpow radix2 (e - 53))%R.
Proof. intros He H. pose proof (rnd_error x e He H) as E. apply Rabs_le_inv in E. lra. Qed.
Definition icrt_of (r : double) : double := dmul (ddiv (of_Z 1) r) (ddiv (of_Z 4294967296) (of_Z 1000000)).
(** The tfracs per cycle computed for a rate, and how far they are from the true quotient. *)
Lemma icrt_spec (r : double) : is_finite r = true -> (200 < B2R r)%R ->
  is_finite (icrt_of r) = true /\ (0 <= B2R (icrt_of r) <= 64)%R /\
  (Rabs (B2R (icrt_of r) - 4294967296 / 1000000 / B2R r) <= bpow radix2 (-45))%R.
Proof.
  intros Fr Hr. unfold icrt_of. fold tfrac_per_us. destruct tfrac_per_us_spec as (T & FT).
  destruct (of_Z_exact 1) as (O & FO); [lia|].
  set (k := (4294967296 / 1000000)%R) in *.
  assert (K : (4294 < k < 4295)%R) by (unfold k; lra). clearbody k.
  set (i := (/ B2R r)%R). replace (k / B2R r)%R with (k * i)%R by reflexivity.
  assert (I0 : (0 < i)%R) by (apply Rinv_0_lt_compat; lra).
  assert (I1 : (i <= / 200)%R) by (apply Rinv_le; lra).
  assert (X : (Rabs (B2R (of_Z 1) / B2R r) <= bpow radix2 (-7))%R).
  { rewrite O. unfold Rdiv. rewrite Rmult_1_l, Rabs_pos_eq by (fold i; lra). fold i. change (bpow radix2 (-7)) with (/ 128)%R. lra. }
  destruct (ddiv_spec (of_Z 1) r (-7) FO) as (V & F); [lra|lia|exact X|].
  rewrite O in V, X. unfold Rdiv in V, X. rewrite Rmult_1_l in V, X. fold i in V, X.
  pose proof (rnd_near i (-7) ltac:(lia) X) as N1. rewrite <- V in N1. change (bpow radix2 (-7 - 53)) with (bpow radix2 (-60)) in N1.
  assert (XT : (Rabs k <= bpow radix2 13)%R) by (rewrite Rabs_pos_eq by lra; change (bpow radix2 13) with 8192%R; lra).
  pose proof (rnd_near k 13 ltac:(lia) XT) as N2. rewrite <- T in N2. change (bpow radix2 (13 - 53)) with (bpow radix2 (-40)) in N2.
  set (inv := B2R (ddiv (of_Z 1) r)) in *. set (t := B2R tfrac_per_us) in *.
  assert (P60 : (bpow radix2 (-60) = / 1152921504606846976)%R) by reflexivity.
  assert (P40 : (bpow radix2 (-40) = / 1099511627776)%R) by reflexivity.
  assert (P47 : (bpow radix2 (-47) = / 140737488355328)%R) by reflexivity.
  assert (P45 : (bpow radix2 (-45) = / 35184372088832)%R) by reflexivity.
  assert (V0 : (0 <= inv)%R) by (rewrite V, <- rnd_0; apply rnd_le; lra).
  assert (D : (- bpow radix2 (-46) <= inv * t - k * i <= bpow radix2 (-46))%R).
  { replace (inv * t - k * i)%R with ((inv - i) * t + i * (t - k))%R by ring.
    change (bpow radix2 (-46)) with (/ 70368744177664)%R. rewrite P60 in N1. rewrite P40 in N2.
    assert (Ht : (0 < t < 4296)%R) by lra.
    assert (- (/ 1152921504606846976) * 4296 <= (inv - i) * t <= / 1152921504606846976 * 4296)%R by nra.
    assert (- (/ 1099511627776) * / 200 <= i * (t - k) <= / 1099511627776 * / 200)%R by nra. lra. }
  assert (Ki : (0 < k * i <= 22)%R) by nra.
  assert (P46 : (bpow radix2 (-46) = / 70368744177664)%R) by reflexivity.
  assert (Y : (Rabs (inv * t) <= bpow radix2 6)%R).
  { change (bpow radix2 6) with 64%R. apply Rabs_le. lra. }
  destruct (dmul_spec (ddiv (of_Z 1) r) tfrac_per_us 6 F FT) as (W & FW); [lia|exact Y|].
  split; [exact FW|]. fold inv t in W. rewrite W. pose proof (rnd_near _ 6 ltac:(lia) Y) as N3. change (bpow radix2 (6 - 53)) with (bpow radix2 (-47)) in N3.
  split.
  - split; [|lra]. rewrite <- rnd_0. apply rnd_le. apply Rmult_le_pos; [exact V0|lra].
  - apply Rabs_le. lra.
Qed.

(** The states of the static variables. *)
Record normal (g : globals) : Prop := {
  n_rate : Bltb (of_Z 200) (clock_rate g) = true;
  n_icrt : inverse_clock_rate_tfrac g = icrt_of (clock_rate g);
  n_mmt : word (max_recalibrate_measure_time g);
  n_mode : mode g <> ModeUseTod;
  n_no : mode g = ModeNo -> may_scale g = false;
  n_max : Bltb (of_Z (max_recalibrate_measure_time g)) (dmul (of_Z 100) (clock_rate g)) = true }.
Record todonly (g : globals) : Prop := {
  t_rate : clock_rate g = of_Z 0; t_icrt : inverse_clock_rate_tfrac g = minus_inf;
  t_mode : mode g = ModeUseTod; t_scale : may_scale g = true }.
Record unset (g : globals) : Prop := {
  u_rate : clock_rate g = minus_inf; u_icrt : inverse_clock_rate_tfrac g = minus_inf;
  u_scale : may_scale g = true }.
(** A Clock. *)
Definition clock_ok (g : globals) (c : clock) : Prop :=
  normal g /\ is_finite (clock_rate g) = true /\
    0 <= recalibrate_interval_cycles c < 2 ^ 30 /\
    (IZR (recalibrate_interval_cycles c) * B2R (inverse_clock_rate_tfrac g) < IZR (2 ^ 30))%R /\
    word (last_calibrate_tod_tfrac c) /\ word (last_cc c) /\ word (last_recalibrate_cc c)
  \/ todonly g /\ c = Clock 0 0 0 0 0.
Definition state_ok (s : cc_state) : Prop :=
  (normal (glob s) \/ todonly (glob s) \/ unset (glob s) /\ obj s = None) /\
  forall c, obj s = Some c -> clock_ok (glob s) c.

Lemma rate_200 g : normal g -> is_finite (clock_rate g) = true -> (200 < B2R (clock_rate g))%R.
Proof.
  intros N F. pose proof (n_rate g N) as L. destruct (of_Z_exact 200) as (A & FA); [lia|]. rewrite bltb_R, A in L by assumption.
  destruct (Rlt_bool_spec 200 (B2R (clock_rate g))); [assumption|discriminate].
Qed.
Lemma rate_not_minus_inf g : normal g -> Beqb (clock_rate g) minus_inf = false.
Proof.
  intros N. pose proof (n_rate g N) as L. destruct (clock_rate g) as [s|[|]| |s m e H]; try reflexivity. vm_compute in L. discriminate L.
Qed.
Lemma zero_not_minus_inf : Beqb (of_Z 0) minus_inf = false.
Proof. reflexivity. Qed.
Lemma rate_positive g : normal g -> Bltb (of_Z 0) (clock_rate g) = true.
Proof.
  intros N. pose proof (n_rate g N) as L. destruct (is_finite (clock_rate g)) eqn:F.
  - pose proof (rate_200 g N F). destruct (of_Z_exact 0) as (A & FA); [lia|]. rewrite bltb_R, A by assumption. apply Rlt_bool_true. lra.
  - destruct (clock_rate g) as [s|[|]| |s m e H]; try discriminate F; try reflexivity; vm_compute in L; discriminate L.
Qed.
Lemma of_Z_finite_sign z : 0 < z <= 2 ^ 53 -> Bsign (of_Z z) = false.
Proof. intros H. apply sign_pos. destruct (of_Z_exact z) as (A & _); [lia|]. rewrite A. apply IZR_lt. lia. Qed.

(** Setting the interval of a calibrated clock: refused, or the cycles fit. *)
Lemma setRecal_normal x g c : normal g -> Bsign x = false ->
  setRecalibrateIntervalSeconds x g c = Abort \/
  exists n, setRecalibrateIntervalSeconds x g c = Ok (Clock (nrecalibrate c) (last_calibrate_tod_tfrac c) (last_cc c) 0 n) /\
    is_finite (clock_rate g) = true /\ 0 <= n < 2 ^ 30 /\
    (IZR n * B2R (inverse_clock_rate_tfrac g) < IZR (2 ^ 30))%R /\
    is_finite x = true /\ n = Zfloor (rnd (rnd (B2R x * 1000000) * B2R (clock_rate g))).
Proof.
  intros N Sx. unfold setRecalibrateIntervalSeconds. set (tmp := dmul (dmul x (of_Z 1000000)) (clock_rate g)).
  set (e := if Bltb (inverse_clock_rate_tfrac g) (of_Z 1) then of_Z 1 else inverse_clock_rate_tfrac g).
  destruct (of_Z_exact 1) as (O & FO); [lia|]. destruct (of_Z_exact 1000000) as (M & FM); [lia|].
  destruct (Bltb (dmul tmp e) (of_Z (2 ^ 30))) eqn:L; [|now left]. right. cbn [invariant bind].
  destruct (is_finite (clock_rate g)) eqn:F.
  - pose proof (rate_200 g N F) as R2. destruct (icrt_spec (clock_rate g) F R2) as (FI & I & _). rewrite <- (n_icrt g N) in FI, I.
    assert (E : is_finite e = true /\ (1 <= B2R e)%R /\ (B2R (inverse_clock_rate_tfrac g) <= B2R e)%R).
    { unfold e. rewrite bltb_R, O by assumption. destruct (Rlt_bool_spec (B2R (inverse_clock_rate_tfrac g)) 1) as [G|G]; [rewrite O|]; repeat split; auto; try lra. }
    destruct E as (FE & E1 & E2).
    assert (St : Bsign tmp = false).
    { unfold tmp. destruct (bltb_not_nan _ _ L) as (NN & _). assert (Nt : is_nan tmp = false) by (unfold dmul in NN; destruct tmp; [reflexivity..|destruct e; discriminate NN|reflexivity]).
      fold tmp. unfold tmp in *. rewrite (dmul_sign _ _ Nt). assert (Nx : is_nan (dmul x (of_Z 1000000)) = false) by (destruct (dmul x (of_Z 1000000)); [reflexivity..|destruct (clock_rate g); discriminate Nt|reflexivity]).
      rewrite (dmul_sign _ _ Nx), Sx, (of_Z_finite_sign 1000000), (sign_pos (clock_rate g)); [reflexivity|clear - R2; lra|clear; lia]. }
    destruct (product_bound tmp e L St E1 FE) as (Ft & T0 & T1).
    assert (T2 : (B2R tmp < IZR (2 ^ 30))%R) by nra.
    assert (T3 : (B2R tmp < IZR (2 ^ 64))%R) by (eapply Rlt_trans; [exact T2|apply IZR_lt; reflexivity]).
    destruct (to_unsigned_spec 64 tmp Ft (conj T0 T3)) as (U & U1). fold tmp. rewrite U. cbn [bind]. exists (Zfloor (B2R tmp)).
    pose proof (Zfloor_lb (B2R tmp)) as Lb.
    destruct (dmul_finite _ _ Ft) as (Fx1 & _ & V1). fold tmp in V1. destruct (dmul_finite _ _ Fx1) as (Fx & _ & V2).
    assert (Hn : (0 <= IZR (Zfloor (B2R tmp)))%R) by (apply IZR_le; exact (proj1 U1)).
    split; [reflexivity|]. split; [reflexivity|]. split; [split; [exact (proj1 U1)|apply lt_IZR; exact (Rle_lt_trans _ _ _ Lb T2)]|]. split; [|split; [exact Fx|rewrite V1, V2, M; reflexivity]].
    clear - Lb Hn T1 E1 E2. nra.
  - exfalso. pose proof (n_rate g N) as L2. destruct (clock_rate g) as [s|[|]| |s m ex H] eqn:Er; try discriminate F; [vm_compute in L2; discriminate L2| |vm_compute in L2; discriminate L2].
    assert (I0 : inverse_clock_rate_tfrac g = B754_zero false) by (rewrite (n_icrt g N), Er; apply (B2SF_inj 53 1024); vm_compute; reflexivity).
    assert (Ee : e = of_Z 1) by (unfold e; rewrite I0; reflexivity). rewrite Ee in L. unfold tmp in L.
    set (y := dmul x (of_Z 1000000)) in *.
    assert (Sy : is_nan y = false -> Bsign y = false).
    { intros NN. unfold y. rewrite (dmul_sign _ _ NN), Sx, (of_Z_finite_sign 1000000) by lia. reflexivity. }
    destruct y as [s|s| |s m e' H]; [vm_compute in L; discriminate L| |vm_compute in L; discriminate L|]; cbn in Sy; rewrite (Sy eq_refl) in L; cbn [dmul Bmult xorb] in L; vm_compute in L; discriminate L.
Qed.
Lemma setRecal_tod x g c : todonly g -> Bsign x = false ->
  setRecalibrateIntervalSeconds x g c = Abort \/
  setRecalibrateIntervalSeconds x g c = Ok (Clock (nrecalibrate c) (last_calibrate_tod_tfrac c) (last_cc c) 0 0).
Proof.
  intros T Sx. unfold setRecalibrateIntervalSeconds. rewrite (t_rate g T), (t_icrt g T).
  change (Bltb minus_inf (of_Z 1)) with true. cbv iota.
  set (y := dmul x (of_Z 1000000)).
  assert (Sy : is_nan y = false -> Bsign y = false).
  { intros NN. unfold y. rewrite (dmul_sign _ _ NN), Sx, (of_Z_finite_sign 1000000) by lia. reflexivity. }
  destruct y as [s|s| |s m e' H]; [right|left|left|right]; try (vm_compute; reflexivity); cbn in Sy; rewrite (Sy eq_refl); vm_compute; reflexivity.
Qed.
Lemma one_ms_sign : Bsign one_ms = false.
Proof. vm_compute. reflexivity. Qed.

Definition allowed (s : cc_state) (o : cc_op) : Prop :=
  sensible o /\ (match o with New _ _ => ~ (mode (glob s) = ModeUseTod /\ unset (glob s)) | _ => True end).
(** Calibrating. *)
Lemma calibrate_ok m g : word (m_max_measure m) -> normal g \/ todonly g \/ unset g ->
  calibrateClock m g = Abort \/ exists g', calibrateClock m g = Ok g' /\ (normal g' \/ todonly g') /\
    (normal g \/ todonly g -> g' = g) /\ (unset g -> mode g <> ModeUseTod -> normal g') /\ mode g' = mode g.
Proof.
  intros W [N|[T|U]]; unfold calibrateClock.
  - rewrite (rate_not_minus_inf g N). right. exists g. cbn. split; [reflexivity|]. split; [now left|]. split; [reflexivity|]. auto.
  - rewrite (t_rate g T), zero_not_minus_inf. right. exists g. cbn. split; [reflexivity|]. split; [now right|]. split; [reflexivity|]. split; [|reflexivity].
    intros U. pose proof (u_rate g U) as A. rewrite (t_rate g T) in A. discriminate A.
  - assert (Contr : normal g \/ todonly g -> False).
    { intros [N|T]; [pose proof (n_rate g N) as A; rewrite (u_rate g U) in A; vm_compute in A; discriminate A|]. pose proof (t_rate g T) as A. rewrite (u_rate g U) in A. discriminate A. }
    rewrite (u_rate g U). change (negb (Beqb minus_inf minus_inf)) with false. cbv iota.
    destruct (is_use_tod (mode g)) eqn:E.
    + right. eexists. split; [reflexivity|]. assert (mode g = ModeUseTod) by (destruct (mode g); discriminate || reflexivity).
      split; [right; constructor; cbn; auto; apply (u_icrt g U)|]. split; [intros C; destruct (Contr C)|]. split; [intros _ C; contradiction|reflexivity].
    + assert (Mt : mode g <> ModeUseTod) by (intros C; rewrite C in E; discriminate E).
      destruct (if negb (is_yes (mode g)) then checkForPossibleFrequencyScaling (m_scaling m) g else Ok g) as [g1| | |] eqn:C1.
      2: now left. 2,3: exfalso; unfold checkForPossibleFrequencyScaling in C1; destruct (is_yes (mode g)), (m_scaling m), (is_no (mode g)); discriminate C1.
      cbn [bind].
      assert (G1 : clock_rate g1 = minus_inf /\ mode g1 = mode g /\ (mode g = ModeNo -> may_scale g1 = false)).
      { unfold checkForPossibleFrequencyScaling in C1. destruct (is_yes (mode g)) eqn:Y; [|destruct (m_scaling m), (is_no (mode g)) eqn:NN]; cbn in C1; try discriminate C1; injection C1 as <-; cbn; (split; [apply (u_rate g U)|split; [reflexivity|]]); intros Q; rewrite Q in *; try discriminate; reflexivity. }
      destruct G1 as (G1 & G2 & G3).
      destruct (m_rate m) as [r|]; cbn [bind].
      * unfold setClockRate. cbn [clock_rate max_recalibrate_measure_time mode may_scale]. rewrite G1. change (Beqb minus_inf minus_inf) with true. cbn [invariant bind].
        destruct (Bltb (of_Z (m_max_measure m)) (dmul (of_Z 100) r)) eqn:L; cbn [invariant bind]; [|now left]. cbn [clock_rate].
        destruct (Bltb (of_Z 200) r) eqn:R; cbn [invariant bind]; [|now left]. right. eexists. split; [reflexivity|].
        assert (NN : normal (Globals r (dmul (ddiv (of_Z 1) r) (ddiv (of_Z 4294967296) (of_Z 1000000))) (m_max_measure m) (mode g1) (may_scale g1))).
        { constructor; cbn [clock_rate inverse_clock_rate_tfrac max_recalibrate_measure_time mode may_scale]; [exact R|reflexivity|assumption|rewrite G2; exact Mt|rewrite G2; exact G3|exact L]. }
        split; [left; exact NN|]. split; [intros C; destruct (Contr C)|]. split; [intros; exact NN|exact G2].
      * cbn [clock_rate]. rewrite G1. left. reflexivity.
Qed.
Lemma allow_ok m g : normal g \/ todonly g -> allowUnsafeFrequencyScaling m g = g.
Proof.
  intros H. unfold allowUnsafeFrequencyScaling.
  assert (E : Beqb (clock_rate g) minus_inf = false) by (destruct H as [N|T]; [now apply rate_not_minus_inf|rewrite (t_rate g T); reflexivity]). rewrite E. cbn [orb].
  destruct (mode_eqb m (mode g)) eqn:M; [|reflexivity]. assert (m = mode g) by (destruct m, (mode g); discriminate || reflexivity). subst m. now destruct g.
Qed.
Lemma allow_unset m g : unset g -> unset (allowUnsafeFrequencyScaling m g) /\ mode (allowUnsafeFrequencyScaling m g) = m.
Proof.
  intros U. unfold allowUnsafeFrequencyScaling. rewrite (u_rate g U). change (Beqb minus_inf minus_inf) with true. cbn. split; [|reflexivity]. constructor; cbn; try apply (u_icrt g U); try apply (u_scale g U); reflexivity.
Qed.
(** Making a Clock. *)
Lemma new_ok a m g : word (m_max_measure m) -> normal g \/ todonly g \/ (unset g /\ mode g <> ModeUseTod) ->
  newClock a m g = Abort \/ exists g' c, newClock a m g = Ok (g', c) /\ clock_ok g' c /\ (normal g \/ todonly g -> g' = g) /\
    last_calibrate_tod_tfrac c = 0 /\ last_cc c = 0 /\ last_recalibrate_cc c = 0.
Proof.
  intros W H. unfold newClock.
  assert (K : forall g', normal g' \/ todonly g' -> setRecalibrateIntervalSeconds one_ms g' (Clock 0 0 0 0 0) = Abort \/
    exists c, setRecalibrateIntervalSeconds one_ms g' (Clock 0 0 0 0 0) = Ok c /\ clock_ok g' c /\ last_calibrate_tod_tfrac c = 0 /\ last_cc c = 0 /\ last_recalibrate_cc c = 0).
  { intros g' [N|T].
    - destruct (setRecal_normal one_ms g' (Clock 0 0 0 0 0) N one_ms_sign) as [A|(n & E & F & Rn & In & _)]; [now left|]. right. eexists. split; [exact E|]. split; [|cbn; auto].
      left. cbn. unfold word. split; [exact N|]. split; [exact F|]. split; [exact Rn|]. split; [exact In|]. lia.
    - destruct (setRecal_tod one_ms g' (Clock 0 0 0 0 0) T one_ms_sign) as [A|E]; [now left|]. right. eexists. split; [exact E|]. split; [|cbn; auto]. right. cbn. auto. }
  destruct (isCalibrated g) eqn:IC.
  - cbn [negb bind]. assert (H' : normal g \/ todonly g).
    { destruct H as [N|[T|(U & M)]]; auto. exfalso. unfold isCalibrated in IC. rewrite (u_rate g U) in IC. change (Bltb (of_Z 0) minus_inf) with false in IC. cbn in IC. destruct (mode g); try discriminate IC. now apply M. }
    destruct (K g H') as [A|(c & E & X)]; [left; rewrite A; reflexivity|]. right. exists g, c. rewrite E. cbn. destruct X as (X1 & X2). auto.
  - cbn [negb]. assert (H' : unset g /\ mode g <> ModeUseTod).
    { destruct H as [N|[T|U]]; auto; exfalso; unfold isCalibrated in IC; [rewrite (rate_positive g N) in IC; discriminate IC|rewrite (t_mode g T), orb_true_r in IC; discriminate IC]. }
    destruct H' as (U & M). destruct a; [|now left]. cbn [invariant bind].
    destruct (calibrate_ok m g W (or_intror (or_intror U))) as [A|(g' & E & _ & _ & N & Mg)]; [left; rewrite A; reflexivity|]. specialize (N U M). rewrite E. cbn [bind]. rewrite (rate_positive g' N). cbn [invariant bind].
    destruct (K g' (or_introl N)) as [A|(c & E' & X)]; [left; rewrite A; reflexivity|]. right. exists g', c. rewrite E'. cbn. destruct X as (X1 & X2). split; [reflexivity|]. split; [exact X1|]. split; [|exact X2].
    intros [N'|T]; exfalso; [pose proof (n_rate g N') as Q; rewrite (u_rate g U) in Q; vm_compute in Q; discriminate Q|pose proof (t_rate g T) as Q; rewrite (u_rate g U) in Q; discriminate Q].
Qed.
(** Asking a calibrated clock for the time. *)
Definition asks (c : clock) (r : readings) : bool :=
  (r_cc r <=? last_cc c) || (recalibrate_interval_cycles c <? (r_cc r - last_recalibrate_cc c) mod 2 ^ 64).
Definition est (g : globals) (d : Z) : Z := Zfloor (rnd (IZR d * B2R (inverse_clock_rate_tfrac g))).
Definition slow (g : globals) : Prop := may_scale g = true /\ (mode g = ModeWarnSlow \/ mode g = ModeSlow).
Definition mid (r : readings) : Z := ((r_start r + r_end r) mod 2 ^ 64) / 2.
Inductive now_step (g : globals) (c : clock) (r : readings) : Z -> bool -> clock -> Prop :=
| ns_slow : asks c r = true -> slow g -> now_step g c r (r_tod r) true c
| ns_bad : asks c r = true -> last_calibrate_tod_tfrac c <= r_tod r ->
    now_step g c r (r_tod r) true (Clock (nrecalibrate c) (last_calibrate_tod_tfrac c) (last_cc c) 0 (recalibrate_interval_cycles c))
| ns_cal : asks c r = true -> ~ slow g -> last_calibrate_tod_tfrac c <= r_tod r -> r_start r < r_end r -> r_end r - r_start r < max_recalibrate_measure_time g ->
    now_step g c r (r_tod r) true (Clock (nrecalibrate c + 1) (r_tod r) (mid r) (mid r) (recalibrate_interval_cycles c))
| ns_est : asks c r = false -> let d := (r_cc r - last_recalibrate_cc c) mod 2 ^ 64 in
    last_cc c < r_cc r -> 0 <= d <= recalibrate_interval_cycles c ->
    now_step g c r ((last_calibrate_tod_tfrac c + est g d) mod 2 ^ 64) false
      (Clock (nrecalibrate c) (last_calibrate_tod_tfrac c) (r_cc r) (last_recalibrate_cc c) (recalibrate_interval_cycles c)).

Lemma est_ok g n d : normal g -> is_finite (clock_rate g) = true -> 0 <= d <= n -> n < 2 ^ 30 ->
  (IZR n * B2R (inverse_clock_rate_tfrac g) < IZR (2 ^ 30))%R ->
  to_unsigned 32 (dmul (of_Z (d mod 2 ^ 32)) (inverse_clock_rate_tfrac g)) = Ok (est g d) /\ 0 <= est g d <= 2 ^ 30 /\
  (- 2 <= IZR (est g d) - IZR d * B2R (inverse_clock_rate_tfrac g) <= 1)%R.
Proof.
  intros N F Hd Hn HI. pose proof (rate_200 g N F) as R2. destruct (icrt_spec (clock_rate g) F R2) as (FI & I & _). rewrite <- (n_icrt g N) in FI, I.
  set (ic := inverse_clock_rate_tfrac g) in *. rewrite Z.mod_small by lia.
  destruct (of_Z_exact d) as (D & FD); [lia|].
  assert (Dn : (0 <= IZR d <= IZR n)%R) by (split; apply IZR_le; lia).
  assert (P : (0 <= IZR d * B2R ic < IZR (2 ^ 30))%R) by (split; [apply Rmult_le_pos; lra|nra]).
  assert (A : (Rabs (B2R (of_Z d) * B2R ic) <= bpow radix2 30)%R) by (rewrite D, Rabs_pos_eq by lra; change (bpow radix2 30) with (IZR (2 ^ 30)); lra).
  destruct (dmul_spec (of_Z d) ic 30 FD FI) as (V & FV); [lia|exact A|]. rewrite D in V, A.
  assert (Q : (0 <= rnd (IZR d * B2R ic) <= IZR (2 ^ 30))%R).
  { split; [rewrite <- rnd_0; apply rnd_le; lra|]. rewrite <- (rnd_Z (2 ^ 30)) by lia. apply rnd_le. lra. }
  assert (Q2 : (0 <= B2R (dmul (of_Z d) ic) < IZR (2 ^ 32))%R) by (rewrite V; split; [lra|]; eapply Rle_lt_trans; [apply Q|apply IZR_lt; lia]).
  destruct (to_unsigned_spec 32 _ FV Q2) as (U & U1). rewrite U, V. unfold est. fold ic. split; [reflexivity|]. rewrite V in U1.
  pose proof (Zfloor_lb (rnd (IZR d * B2R ic))) as L1. pose proof (Zfloor_ub (rnd (IZR d * B2R ic))) as L2.
  split; [split; [lia|apply le_IZR; lra]|].
  pose proof (rnd_near _ 30 ltac:(lia) A) as E. change (bpow radix2 (30 - 53)) with (/ 8388608)%R in E. lra.
Qed.
Lemma est_mono g d e : normal g -> is_finite (clock_rate g) = true -> d <= e -> est g d <= est g e.
Proof.
  intros N F H. pose proof (rate_200 g N F) as R2. destruct (icrt_spec (clock_rate g) F R2) as (_ & I & _). rewrite <- (n_icrt g N) in I.
  apply Zfloor_le. apply rnd_le. apply Rmult_le_compat_r; [lra|now apply IZR_le].
Qed.
Lemma est_0 g : est g 0 = 0.
Proof. unfold est. rewrite Rmult_0_l, rnd_0. apply (Zfloor_IZR 0). Qed.

Lemma now_normal g c r : clock_ok g c -> normal g -> machine r ->
  todccTfrac g c r = Abort /\ asks c r = true /\ r_tod r < last_calibrate_tod_tfrac c /\ ~ slow g \/
  exists t b c', todccTfrac g c r = Ok (t, b, c') /\ now_step g c r t b c' /\ clock_ok g c'.
Proof.
  intros [(_ & F & Hi & HI & W1 & W2 & W3)|(T & _)] N (M1 & M2 & M3 & M4).
  2: { exfalso. apply (n_mode g N). apply (t_mode g T). }
  unfold todccTfrac. fold (asks c r). destruct (asks c r) eqn:A.
  - assert (Body : ~ slow g -> todccTfrac_recalibrate g c r =
      if last_calibrate_tod_tfrac c <=? r_tod r then
        if (r_end r <=? r_start r) || (max_recalibrate_measure_time g <=? r_end r - r_start r)
        then Ok (r_tod r, Clock (nrecalibrate c) (last_calibrate_tod_tfrac c) (last_cc c) 0 (recalibrate_interval_cycles c))
        else Ok (r_tod r, Clock (nrecalibrate c + 1) (r_tod r) (mid r) (mid r) (recalibrate_interval_cycles c))
      else Abort).
    { intros S. unfold todccTfrac_recalibrate. fold (mid r). rewrite (rate_positive g N). cbn [invariant bind].
      assert (Ec : (r_end r <=? r_start r) || (max_recalibrate_measure_time g <=? (r_end r - r_start r) mod 2 ^ 64) = (r_end r <=? r_start r) || (max_recalibrate_measure_time g <=? r_end r - r_start r)).
      { destruct (Z.leb_spec (r_end r) (r_start r)); [reflexivity|]. cbn [orb]. unfold word in *. rewrite Z.mod_small by lia. reflexivity. }
      rewrite Ec. assert (X : (let! _ := invariant (last_calibrate_tod_tfrac c <=? r_tod r) in
          if (r_end r <=? r_start r) || (max_recalibrate_measure_time g <=? r_end r - r_start r)
          then Ok (r_tod r, Clock (nrecalibrate c) (last_calibrate_tod_tfrac c) (last_cc c) 0 (recalibrate_interval_cycles c))
          else Ok (r_tod r, Clock (nrecalibrate c + 1) (r_tod r) (mid r) (mid r) (recalibrate_interval_cycles c))) =
        if last_calibrate_tod_tfrac c <=? r_tod r then
          if (r_end r <=? r_start r) || (max_recalibrate_measure_time g <=? r_end r - r_start r)
          then Ok (r_tod r, Clock (nrecalibrate c) (last_calibrate_tod_tfrac c) (last_cc c) 0 (recalibrate_interval_cycles c))
          else Ok (r_tod r, Clock (nrecalibrate c + 1) (r_tod r) (mid r) (mid r) (recalibrate_interval_cycles c))
        else Abort) by (destruct (last_calibrate_tod_tfrac c <=? r_tod r); reflexivity).
      destruct (may_scale g) eqn:Sc; [|exact X]. destruct (mode g) eqn:Md; try exact X; exfalso.
      - apply S. split; auto. - apply S. split; auto. - pose proof (n_no g N Md). congruence. - now apply (n_mode g N). }
    assert (Sd : slow g \/ ~ slow g).
    { unfold slow. destruct (may_scale g), (mode g); try (left; split; [reflexivity|tauto]); right; intros (S1 & [S2|S2]); discriminate. }
    destruct Sd as [S|S].
    + right. exists (r_tod r), true, c. split; [|split; [now constructor|left; tauto]]. unfold todccTfrac_recalibrate. destruct S as (S1 & S2). rewrite S1. destruct S2 as [S2|S2]; rewrite S2; reflexivity.
    + rewrite (Body S). destruct (Z.leb_spec (last_calibrate_tod_tfrac c) (r_tod r)) as [L|L]; [|left; cbn; auto]. right.
      destruct (_ || _) eqn:Q; cbn [bind]; do 3 eexists; (split; [reflexivity|]).
      * split; [now constructor|]. left. cbn. unfold word in *. split; [exact N|]. split; [exact F|]. split; [exact Hi|]. split; [exact HI|]. lia.
      * split; [constructor; [exact A|exact S|lia..]|]. left. cbn. unfold word in *. split; [exact N|]. split; [exact F|]. split; [exact Hi|]. split; [exact HI|].
        assert (0 <= mid r < 2 ^ 64) by (unfold mid; Z.to_euclidean_division_equations; lia). lia.
  - right. set (d := (r_cc r - last_recalibrate_cc c) mod 2 ^ 64). unfold asks in A. fold d in A.
    assert (Hd : 0 <= d <= recalibrate_interval_cycles c) by (assert (0 <= d < 2 ^ 64) by (apply Z.mod_pos_bound; lia); lia).
    destruct (est_ok g (recalibrate_interval_cycles c) d N F Hd) as (E & E2 & _); [lia|exact HI|]. rewrite E. cbn [bind].
    exists ((last_calibrate_tod_tfrac c + est g d) mod 2 ^ 64), false, (Clock (nrecalibrate c) (last_calibrate_tod_tfrac c) (r_cc r) (last_recalibrate_cc c) (recalibrate_interval_cycles c)). split; [reflexivity|]. split.
    + apply ns_est; [unfold asks; fold d; exact A|lia|exact Hd].
    + left. cbn. unfold word in *. split; [exact N|]. split; [exact F|]. split; [exact Hi|]. split; [exact HI|]. lia.
Qed.
Lemma now_tod g c r : todonly g -> c = Clock 0 0 0 0 0 -> machine r -> todccTfrac g c r = Ok (r_tod r, true, c).
Proof.
  intros T -> (M1 & M2 & M3 & M4). unfold todccTfrac. cbn [last_cc last_recalibrate_cc recalibrate_interval_cycles]. unfold word in *.
  assert (A : (r_cc r <=? 0) || (0 <? (r_cc r - 0) mod 2 ^ 64) = true) by (rewrite Z.sub_0_r, Z.mod_small by lia; lia).
  rewrite A. unfold todccTfrac_recalibrate. rewrite (t_scale g T), (t_mode g T). reflexivity.
Qed.
Lemma now_ok g c r : clock_ok g c -> machine r -> todccTfrac g c r = Abort \/ exists t b c', todccTfrac g c r = Ok (t, b, c') /\ clock_ok g c'.
Proof.
  intros C M. pose proof C as C'. destruct C' as [(N & _)|(T & E)].
  - destruct (now_normal g c r C N M) as [(A & _)|(t & b & c' & X & _ & Y)]; [now left|]. right. eauto.
  - right. rewrite (now_tod g c r T E M). eauto 6.
Qed.

(** A step of a program that is allowed to take it. *)
Lemma step_ok s o : state_ok s -> sensible o ->
  (normal (glob s) \/ todonly (glob s) \/ unset (glob s) /\ (mode (glob s) <> ModeUseTod \/ forall a m, o <> New a m)) ->
  cc_step s o = Abort \/ exists s' a, cc_step s o = Ok (s', a) /\ state_ok s'.
Proof.
  intros (S & C) H U. destruct o as [m|m|a m|x|r]; cbn [cc_step].
  - right. do 2 eexists. split; [reflexivity|]. split; cbn [glob obj].
    + destruct S as [N|[T|(Us & E)]]; [rewrite allow_ok by auto; auto..|]. right. right. split; [now apply allow_unset|exact E].
    + intros c E. specialize (C c E). destruct C as [(N & X)|(T & X)]; rewrite allow_ok by auto; [left|right]; auto.
  - cbn in H. destruct (calibrate_ok m (glob s) H) as [A|(g' & E & K & Same & _ & _)]; [tauto|left; rewrite A; reflexivity|].
    right. rewrite E. cbn [bind]. do 2 eexists. split; [reflexivity|]. split; cbn [glob obj]; [tauto|].
    intros c Ec. specialize (C c Ec). rewrite Same; [exact C|]. destruct C as [(N & _)|(T & _)]; auto.
  - cbn in H. assert (U' : normal (glob s) \/ todonly (glob s) \/ unset (glob s) /\ mode (glob s) <> ModeUseTod).
    { destruct U as [N|[T|(X & [Y|Y])]]; auto. exfalso. now apply (Y a m). }
    destruct (new_ok a m (glob s) H U') as [A|(g' & c & E & K & _)]; [left; rewrite A; reflexivity|]. right. rewrite E. cbn [bind]. do 2 eexists. split; [reflexivity|].
    split; cbn [glob obj]; [destruct K as [(N & _)|(T & _)]; auto|]. intros c' [= <-]. exact K.
  - destruct (obj s) as [c|] eqn:Ec; [|right; do 2 eexists; split; [reflexivity|]; split; [rewrite Ec; exact S|rewrite Ec; exact C]].
    specialize (C c eq_refl). cbn in H. destruct C as [(N & F & _ & _ & W1 & W2 & W3)|(T & E)].
    + destruct (setRecal_normal x (glob s) c N H) as [A|(n & E & _ & Rn & In & _)]; [left; rewrite A; reflexivity|]. right. rewrite E. cbn [bind]. do 2 eexists. split; [reflexivity|].
      split; cbn [glob obj]; [auto|]. intros c' [= <-]. left. cbn. unfold word. split; [exact N|]. split; [exact F|]. split; [exact Rn|]. split; [exact In|]. unfold word in *. lia.
    + destruct (setRecal_tod x (glob s) c T H) as [A|X]; [left; rewrite A; reflexivity|]. right. rewrite X. cbn [bind]. do 2 eexists. split; [reflexivity|].
      split; cbn [glob obj]; [auto|]. intros c' [= <-]. right. subst c. auto.
  - destruct (obj s) as [c|] eqn:Ec; [|right; do 2 eexists; split; [reflexivity|]; split; [rewrite Ec; exact S|rewrite Ec; exact C]].
    specialize (C c eq_refl). cbn in H. destruct (now_ok (glob s) c r C H) as [A|(t & b & c' & E & K)]; [left; rewrite A; reflexivity|]. right. rewrite E. cbn [bind]. do 2 eexists. split; [reflexivity|].
    split; cbn [glob obj]; [destruct K as [(N & _)|(T & _)]; auto|]. intros c'' [= <-]. exact K.
Qed.
