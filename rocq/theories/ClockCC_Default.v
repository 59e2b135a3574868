(** The default interval. *)
From Coq Require Import List ZArith Reals Lra Lia Psatz Bool.
From Coq Require Import ZifyBool ZifyNat.
From Flocq Require Import Core BinarySingleNaN.
From Verif Require Import Common Double64 Clock_Model Clock_Proofs ClockCC_Model ClockCC_Spec ClockCC_Proofs ClockCC_Runs.
Import ListNotations.
Local Open Scope Z_scope.

Lemma one_ms_spec : B2R one_ms = rnd (1 / 1000) /\ is_finite one_ms = true.
Proof.
  destruct (of_Z_exact 1) as (A & FA); [lia|]. destruct (of_Z_exact 1000) as (B & FB); [lia|].
  destruct (ddiv_spec (of_Z 1) (of_Z 1000) 0 FA) as (V & F); [rewrite B; lra|lia|rewrite A, B, Rabs_pos_eq by lra; change (bpow radix2 0) with 1%R; lra|].
  unfold one_ms. rewrite V, A, B. auto.
Qed.
Lemma default_cycles (r : double) : is_finite r = true -> (200 < B2R r)%R -> Zfloor (rnd (rnd (B2R one_ms * 1000000) * B2R r)) < 2 ^ 30 ->
  (B2R r < 1100000)%R /\ (IZR (Zfloor (rnd (rnd (B2R one_ms * 1000000) * B2R r))) <= 1000 * B2R r + 1)%R.
Proof.
  intros F R H. destruct one_ms_spec as (O & _).
  assert (O1 : (1 / 1000 - / 1000000000000000 <= B2R one_ms <= 1 / 1000 + / 1000000000000000)%R).
  { rewrite O. pose proof (rnd_near (1 / 1000) 0 ltac:(lia)) as E. change (bpow radix2 0) with 1%R in E. change (bpow radix2 (0 - 53)) with (/ 9007199254740992)%R in E. rewrite Rabs_pos_eq in E by lra. lra. }
  set (a := rnd (B2R one_ms * 1000000)) in *.
  assert (A : (999.99999 <= a <= 1000.0000001)%R).
  { unfold a. assert (X : (Rabs (B2R one_ms * 1000000) <= bpow radix2 10)%R) by (change (bpow radix2 10) with 1024%R; apply Rabs_le; lra).
    pose proof (rnd_near _ 10 ltac:(lia) X) as E. change (bpow radix2 (10 - 53)) with (/ 8796093022208)%R in E. lra. }
  assert (Rb : (B2R r < 1100000)%R).
  { apply Rnot_le_lt. intros C. assert (L : (IZR (2 ^ 30) <= rnd (a * B2R r))%R).
    { rewrite <- (rnd_Z (2 ^ 30)) by lia. apply rnd_le. change (IZR (2 ^ 30)) with 1073741824%R. nra. }
    apply Zfloor_lub in L. lia. }
  split; [exact Rb|]. eapply Rle_trans; [apply Zfloor_lb|].
  assert (X : (Rabs (a * B2R r) <= bpow radix2 31)%R) by (change (bpow radix2 31) with 2147483648%R; apply Rabs_le; nra).
  pose proof (rnd_near _ 31 ltac:(lia) X) as E. change (bpow radix2 (31 - 53)) with (/ 4194304)%R in E. nra.
Qed.
(** Without a call to setRecalibrateIntervalSeconds. *)
Definition defaulted (s : cc_state) : Prop :=
  forall c, obj s = Some c -> normal (glob s) ->
    (B2R (clock_rate (glob s)) < 1100000)%R /\ (IZR (recalibrate_interval_cycles c) <= 1000 * B2R (clock_rate (glob s)) + 1)%R.
Definition keeps_interval (o : cc_op) : Prop := forall x, o <> SetInterval x.
Lemma defaulted_step s o s' a : state_ok s -> sensible o -> keeps_interval o -> defaulted s -> cc_step s o = Ok (s', a) -> state_ok s' -> defaulted s'.
Proof.
  intros S H Q P E S' c' Ec N. destruct (step_clock s o s' a c' S H E S' Ec) as [(c & Eo & -> & G & _)|[(_ & _ & _ & (b & m & ->))|[(x & c & A & _)|(r & c & t & b & -> & Eo & G & _ & X)]]].
  - rewrite G in *. now apply P.
  - cbn [cc_step] in E. unfold newClock in E. destruct (if negb _ then _ else _) as [g| | |]; cbn [bind] in E; try discriminate E.
    destruct (setRecalibrateIntervalSeconds one_ms g (Clock 0 0 0 0 0)) as [c| | |] eqn:X; cbn [bind] in E; try discriminate E. injection E as <- <-. cbn in Ec, N. injection Ec as ->. cbn [glob].
    destruct (setRecal_normal one_ms g (Clock 0 0 0 0 0) N one_ms_sign) as [A|(n & E1 & F & Rn & _ & _ & En)]; [congruence|]. rewrite X in E1. injection E1 as ->. cbn [recalibrate_interval_cycles].
    pose proof (rate_200 g N F) as R2. subst n. apply default_cycles; [exact F|exact R2|exact (proj2 Rn)].
  - exfalso. now apply (Q x).
  - rewrite G in *. cbn in H. pose proof (now_cases s c r t b c' S Eo N H X) as K. pose proof (P c Eo N) as PP. destruct K; exact PP.
Qed.
(** A measured maximum below 100 rates. *)
Lemma max_measure g : normal g -> is_finite (clock_rate g) = true -> (B2R (clock_rate g) < 1100000)%R ->
  (IZR (max_recalibrate_measure_time g) < 100 * B2R (clock_rate g))%R.
Proof.
  intros N F R. pose proof (n_max g N) as L. pose proof (rate_200 g N F) as R2. destruct (n_mmt g N) as (W1 & W2).
  destruct (of_Z_exact 100) as (A & FA); [lia|].
  destruct (of_Z_spec (max_recalibrate_measure_time g)) as (B & FB); [lia|].
  destruct (dmul_spec (of_Z 100) (clock_rate g) 27 FA F) as (V & FV); [lia|rewrite A; change (bpow radix2 27) with 134217728%R; apply Rabs_le; lra|].
  rewrite bltb_R, B, V, A in L by assumption. destruct (Rlt_bool_spec (rnd (IZR (max_recalibrate_measure_time g))) (rnd (100 * B2R (clock_rate g)))) as [Q|]; [|discriminate L].
  apply Rnot_le_lt. intros C. apply (Rlt_not_le _ _ Q). now apply rnd_le.
Qed.
(** The three terms of the error, for a rate within one per cent. *)
Lemma default_error (r f ic n mmt : R) : (200 < r < 1100000)%R -> (0 < f)%R -> (Rabs (r - f) <= f / 100)%R ->
  (Rabs (ic - 4294967296 / 1000000 / r) <= bpow radix2 (-45))%R -> (0 <= n <= 1000 * r + 1)%R -> (0 <= mmt <= 100 * r)%R ->
  (4294967296 / 1000000 / f * mmt + Rabs (ic - 4294967296 / 1000000 / f) * n + 2 <= 4294967296 / 1000000 * 112)%R.
Proof.
  intros R Hf D I Hn Hm. set (k := (4294967296 / 1000000)%R) in *. assert (K : (4294 < k < 4295)%R) by (unfold k; lra). clearbody k.
  apply Rabs_le_inv in D. change (bpow radix2 (-45)) with (/ 35184372088832)%R in I.
  assert (Q : (r / f <= 1.01)%R) by (apply (Rmult_le_reg_r f); [exact Hf|]; field_simplify; lra).
  assert (Q0 : (0 < r / f)%R) by (apply Rdiv_lt_0_compat; lra).
  assert (T1 : (k / f * mmt <= k * 101)%R).
  { apply Rle_trans with (k / f * (100 * r))%R; [apply Rmult_le_compat_l; [apply Rlt_le, Rdiv_lt_0_compat; lra|lra]|]. replace (k / f * (100 * r))%R with (k * (100 * (r / f)))%R by (field; lra). apply Rmult_le_compat_l; lra. }
  assert (T2 : (Rabs (ic - k / f) <= / 35184372088832 + k * / 100 * / r)%R).
  { replace (ic - k / f)%R with ((ic - k / r) + k * ((f - r) / f) * / r)%R by (field; lra). eapply Rle_trans; [apply Rabs_triang|]. apply Rplus_le_compat; [exact I|].
    assert (Ir : (0 < / r)%R) by (apply Rinv_0_lt_compat; lra).
    assert (Y : (- (1 / 100) <= (f - r) / f <= 1 / 100)%R) by (split; apply (Rmult_le_reg_r f); try exact Hf; field_simplify; lra).
    rewrite Rabs_mult, (Rabs_pos_eq (/ r)) by lra. apply Rmult_le_compat_r; [lra|]. rewrite Rabs_mult, (Rabs_pos_eq k) by lra. apply Rmult_le_compat_l; [lra|]. apply Rabs_le. lra. }
  assert (T3 : (Rabs (ic - k / f) * n <= k * 10.01)%R).
  { apply Rle_trans with ((/ 35184372088832 + k * / 100 * / r) * (1000 * r + 1))%R; [apply Rmult_le_compat; [apply Rabs_pos|lra|exact T2|lra]|].
    replace ((/ 35184372088832 + k * / 100 * / r) * (1000 * r + 1))%R with (/ 35184372088832 * (1000 * r + 1) + k * 10 + k * / 100 * / r)%R by (field; lra).
    assert (Ir : (/ r <= / 200)%R) by (apply Rinv_le; lra). assert (Ir0 : (0 < / r)%R) by (apply Rinv_0_lt_compat; lra). nra. }
  lra.
Qed.
