(** C96: the test for autocorrelation. *)
From Coq Require Import List Arith ZArith QArith Qreals Reals Lra Lqa Lia Bool ZifyBool ZifyNat.
From Verif Require Import Common CommonFacts Arith Stats_Spec Stats_Model Stats_Proofs Series_Model Series_Spec Series_Proofs Series_Props Corr_Model.
Import ListNotations.
Local Open Scope Z_scope.

(** Fisher's statistic for a sample correlation r of n pairs: sqrt(n-3) * artanh(r) *)
Definition fisher (n : Z) (r : R) : R := (sqrt (IZR n - 3) / 2 * ln ((1 + r) / (1 - r)))%R.
(** the sample autocorrelation at a lag *)
Definition sample_r (l : list Q) (lag : nat) : Q := (acov l lag / qvar l)%Q.
(** the hyperbolic tangent *)
Definition th (t : R) : R := ((exp (2 * t) - 1) / (exp (2 * t) + 1))%R.

Lemma fisher_threshold n r : (4 <= n)%Z -> (-1 < r < 1)%R -> (196 / 100 <= fisher n r <-> th (196 / 100 / sqrt (IZR n - 3)) <= r)%R.
Proof.
  intros Hn Hr. unfold fisher, th. assert (N1 : (1 <= IZR n - 3)%R) by (apply IZR_le in Hn; Lra.lra). set (s := sqrt (IZR n - 3)).
  assert (S : (0 < s)%R) by (apply sqrt_lt_R0; Lra.lra). set (q := ((1 + r) / (1 - r))%R). assert (Q0 : (0 < q)%R) by (apply Rdiv_lt_0_compat; Lra.lra).
  set (e := exp (2 * (196 / 100 / s))). assert (E0 : (0 < e)%R) by apply exp_pos.
  assert (A : (196 / 100 <= s / 2 * ln q <-> e <= q)%R).
  { assert (B : (196 / 100 <= s / 2 * ln q <-> 2 * (196 / 100 / s) <= ln q)%R).
    { split; intros H.
      - apply Rmult_le_reg_l with (s / 2)%R; [Lra.lra|]. replace (s / 2 * (2 * (196 / 100 / s)))%R with (196 / 100)%R by (field; Lra.lra). exact H.
      - apply Rmult_le_compat_l with (r := (s / 2)%R) in H; [|Lra.lra]. replace (s / 2 * (2 * (196 / 100 / s)))%R with (196 / 100)%R in H by (field; Lra.lra). exact H. }
    rewrite B. split; intros H.
    - destruct H as [H|H]; [left|right]; [rewrite <- (exp_ln q Q0); apply exp_increasing; exact H|unfold e; rewrite H; now apply exp_ln].
    - unfold e in H. destruct H as [H|H]; [left|right]; [rewrite <- (ln_exp (2 * (196 / 100 / s))); apply ln_increasing; [apply exp_pos|exact H]|rewrite <- H; now rewrite ln_exp]. }
  rewrite A. unfold q. split; intros H.
  - apply Rmult_le_compat_r with (r := (1 - r)%R) in H; [|Lra.lra]. unfold Rdiv in H. rewrite Rmult_assoc, Rinv_l, Rmult_1_r in H by Lra.lra.
    apply Rmult_le_reg_r with (e + 1)%R; [Lra.lra|]. unfold Rdiv. rewrite Rmult_assoc, Rinv_l, Rmult_1_r by Lra.lra. Lra.lra.
  - apply Rmult_le_compat_r with (r := (e + 1)%R) in H; [|Lra.lra]. unfold Rdiv in H. rewrite Rmult_assoc, Rinv_l, Rmult_1_r in H by Lra.lra.
    apply Rmult_le_reg_r with (1 - r)%R; [Lra.lra|]. unfold Rdiv. rewrite Rmult_assoc, Rinv_l, Rmult_1_r by Lra.lra. Lra.lra.
Qed.

(** ** iscorrelated95(lag) says true exactly when the sample autocorrelation is at
    least tanh(1.96 / sqrt(n - 3)), that is when Fisher's statistic is at least 1.96. *)
Theorem C96_partial : forall ml s ops lag, se_new exact ml = Ok s -> (Z.of_nat (adds ops) < 2 ^ 32)%Z ->
  let l := held ops in let n := Z.of_nat (length l) in let r := Q2R (sample_r l lag) in
  3 < n -> ~ (qvar l == 0)%Q -> (lag <= ml)%nat -> (lag < length l)%nat ->
  exists s' b, se_run exact s (map to_op ops) = Ok s' /\ iscorrelated95 s' lag = Ok b /\
    (b = true <-> (th (196 / 100 / sqrt (IZR n - 3)) <= r)%R) /\
    ((r < 1)%R -> (b = true <-> (196 / 100 <= fisher n r)%R /\ (-1 < r)%R)).
Proof.
  intros ml s ops lag En Ha l n r Hn Hv Hl1 Hl2. destruct (run_new ml s ops En Ha) as (s' & Er & I & L).
  destruct (C41_autocorrelation ml s ops En Ha Hv) as (s2 & Er2 & _ & Ac). rewrite Er in Er2. injection Er2 as <-. destruct (Ac lag Hl1 Hl2) as (x & Ex & Qx & Bx1 & Bx2).
  assert (Cn : st_count exact (se_stats s') = n). { unfold st_count. apply Rep_number; [exact (v_rep _ _ _ I)|]. subst l. lia. }
  assert (Rx : Q2R x = r) by (unfold r, sample_r; now apply Qeq_eqR).
  assert (R1 : (-1 <= r)%R). { rewrite <- Rx. replace (-1)%R with (Q2R (-1)%Q) by (unfold Q2R; cbn; Lra.lra). now apply Qle_Rle. }
  assert (R2 : (r <= 1)%R). { rewrite <- Rx. replace 1%R with (Q2R 1%Q) by (unfold Q2R; cbn; Lra.lra). now apply Qle_Rle. }
  exists s'. eexists. split; [exact Er|]. unfold iscorrelated95. rewrite Cn. replace (n <=? 3) with false by lia. rewrite Ex. cbn [bind]. split; [reflexivity|].
  assert (T1 : (th (196 / 100 / sqrt (IZR n - 3)) < 1)%R).
  { unfold th. set (e := exp _). assert (E0 : (0 < e)%R) by apply exp_pos. apply Rmult_lt_reg_r with (e + 1)%R; [Lra.lra|]. unfold Rdiv. rewrite Rmult_assoc, Rinv_l by Lra.lra. Lra.lra. }
  assert (T0 : (-1 < th (196 / 100 / sqrt (IZR n - 3)))%R).
  { unfold th. set (e := exp _). assert (E0 : (0 < e)%R) by apply exp_pos. apply Rmult_lt_reg_r with (e + 1)%R; [Lra.lra|]. unfold Rdiv. rewrite Rmult_assoc, Rinv_l by Lra.lra. Lra.lra. }
  cbn [ndiv nadd nsub of_int exact xadd xsub xopp xdiv].
  destruct (Qeq_bool (inject_Z 1 + - x) 0) eqn:E1.
  - (* r = 1 *)
    assert (X1 : (x == 1)%Q) by (apply Qeq_bool_iff in E1; change (inject_Z 1) with 1%Q in E1; Lqa.lra).
    assert (r1 : r = 1%R) by (rewrite <- Rx; replace 1%R with (Q2R 1%Q) by (unfold Q2R; cbn; Lra.lra); now apply Qeq_eqR).
    replace (Qeq_bool (inject_Z 1 + x) 0) with false. 2:{ symmetry. apply Qeq_bool_false. change (inject_Z 1) with 1%Q. intros F. Lqa.lra. }
    assert (Sg : qsign (inject_Z 1 + x) = false).
    { unfold qsign. assert (P : (0 <= inject_Z 1 + x)%Q) by (change (inject_Z 1) with 1%Q; Lqa.lra). apply Qle_bool_iff in P. rewrite P. reflexivity. }
    rewrite Sg. cbn [z_large]. split; [|intros F; exfalso; Lra.lra]. split; [intros _; Lra.lra|reflexivity].
  - assert (X1 : ~ (x == 1)%Q). { apply Qeq_bool_neq in E1. intros F. apply E1. rewrite F. reflexivity. }
    assert (r1 : (r < 1)%R). { destruct R2 as [R2|R2]; [exact R2|exfalso]. apply X1. apply eqR_Qeq. rewrite Rx, R2. unfold Q2R. cbn. Lra.lra. }
    assert (Ratio : Q2R ((inject_Z 1 + x) / (inject_Z 1 + - x)) = ((1 + r) / (1 - r))%R).
    { rewrite Q2R_div. 2:{ now apply Qeq_bool_neq. } rewrite !Q2R_plus, Q2R_opp, Rx. change (inject_Z 1) with 1%Q. replace (Q2R 1) with 1%R by (unfold Q2R; cbn; Lra.lra). reflexivity. }
    cbn [z_large]. rewrite Ratio. destruct (Req_dec r (-1)) as [Em|Nm].
    + destruct (Rlt_dec 0 ((1 + r) / (1 - r))) as [P|P].
      * exfalso. rewrite Em in P. replace ((1 + -1) / (1 - -1))%R with 0%R in P by field. Lra.lra.
      * split; [split; [discriminate|intros F; exfalso; Lra.lra]|intros _; split; [discriminate|intros [_ F]; exfalso; Lra.lra]].
    + assert (r0 : (-1 < r)%R) by Lra.lra. destruct (Rlt_dec 0 ((1 + r) / (1 - r))) as [P|P]; [|exfalso; apply P; apply Rdiv_lt_0_compat; Lra.lra].
      change (sqrt (IZR n - 3) / 2 * ln ((1 + r) / (1 - r)))%R with (fisher n r). pose proof (fisher_threshold n r ltac:(lia) ltac:(split; assumption)) as Th.
      destruct (Rle_dec (196 / 100) (fisher n r)) as [G|G].
      * split; [split; [intros _; now apply Th|reflexivity]|intros _; split; [auto|reflexivity]].
      * split; [split; [discriminate|intros F; exfalso; apply G; now apply Th]|intros _; split; [discriminate|intros [F _]; contradiction]].
Qed.
Print Assumptions C96_partial.

(** The threshold is positive: a negative autocorrelation is never reported, however
    strong, and no autocorrelation is reported for up to three samples. *)
Lemma th_pos t : (0 < t)%R -> (0 < th t)%R.
Proof. intros H. unfold th. assert (1 < exp (2 * t))%R by (rewrite <- exp_0; apply exp_increasing; Lra.lra). apply Rdiv_lt_0_compat; Lra.lra. Qed.
Theorem C96_negative : forall ml s ops lag, se_new exact ml = Ok s -> (Z.of_nat (adds ops) < 2 ^ 32)%Z ->
  ~ (qvar (held ops) == 0)%Q -> (lag <= ml)%nat -> (lag < length (held ops))%nat ->
  (sample_r (held ops) lag <= 0)%Q ->
  exists s', se_run exact s (map to_op ops) = Ok s' /\ iscorrelated95 s' lag = Ok false.
Proof.
  intros ml s ops lag En Ha Hv Hl1 Hl2 Hr. destruct (run_new ml s ops En Ha) as (s' & Er & I & L). exists s'. split; [exact Er|].
  destruct (Z_le_dec (Z.of_nat (length (held ops))) 3) as [S|S].
  - unfold iscorrelated95, st_count. rewrite (Rep_number _ _ (v_rep _ _ _ I)) by lia. replace (Z.of_nat (length (held ops)) <=? 3) with true by lia. reflexivity.
  - destruct (C96_partial ml s ops lag En Ha ltac:(lia) Hv Hl1 Hl2) as (s2 & b & Er2 & Eb & T & _). rewrite Er in Er2. injection Er2 as <-. rewrite Eb. f_equal. destruct b; [|reflexivity]. exfalso.
    pose proof (proj1 T eq_refl) as T'. assert (N1 : (1 <= IZR (Z.of_nat (length (held ops))) - 3)%R). { assert (4 <= IZR (Z.of_nat (length (held ops))))%R by (apply IZR_le; lia). Lra.lra. }
    assert (P : (0 < th (196 / 100 / sqrt (IZR (Z.of_nat (length (held ops))) - 3)))%R). { apply th_pos. apply Rdiv_lt_0_compat; [Lra.lra|]. apply sqrt_lt_R0. Lra.lra. }
    apply Qle_Rle in Hr. replace (Q2R 0) with 0%R in Hr by (unfold Q2R; cbn; Lra.lra). Lra.lra.
Qed.
Print Assumptions C96_negative.

(** So the test is not the two-sided one its comment describes (rho <> 0 at 95%): the
    series 1 -1 1 -1 1 -1 1 -1 has autocorrelation -7/8 at lag 1 and a statistic
    below -1.96, and is reported as not correlated. *)
Definition zigzag : list qop := [QAdd 1; QAdd (-1); QAdd 1; QAdd (-1); QAdd 1; QAdd (-1); QAdd 1; QAdd (-1)].
Theorem C96_two_sided_refuted : exists s s', se_new exact 1 = Ok s /\ se_run exact s (map to_op zigzag) = Ok s' /\
  (sample_r (held zigzag) 1 == - (7 # 8))%Q /\ (196 / 100 <= Rabs (fisher 8 (Q2R (sample_r (held zigzag) 1))))%R /\ iscorrelated95 s' 1 = Ok false.
Proof.
  assert (Hn : exists s, se_new exact 1 = Ok s) by (eexists; reflexivity). destruct Hn as (s & En). exists s.
  destruct (C96_negative 1 s zigzag 1 En) as (s' & Er & Eb); [vm_compute; reflexivity|vm_compute; discriminate|lia|cbn; lia|vm_compute; discriminate|].
  exists s'. split; [exact En|]. split; [exact Er|]. assert (Hr : (sample_r (held zigzag) 1 == - (7 # 8))%Q) by (vm_compute; reflexivity). split; [exact Hr|]. split; [|exact Eb].
  rewrite (Qeq_eqR _ _ Hr). replace (Q2R (- (7 # 8))) with (- (7 / 8))%R by (rewrite Q2R_opp; unfold Q2R; cbn [Qnum Qden]; Lra.lra). unfold fisher.
  replace ((1 + - (7 / 8)) / (1 - - (7 / 8)))%R with (/ 15)%R by field. rewrite ln_Rinv by Lra.lra.
  assert (L : (2 <= ln 15)%R).
  { rewrite <- (ln_exp 2). left. apply ln_increasing; [apply exp_pos|]. replace 2%R with (1 + 1)%R by Lra.lra. rewrite exp_plus. pose proof exp_le_3 as E3. pose proof (exp_pos 1) as E0. Lra.nra. }
  assert (S : (2 <= sqrt (8 - 3))%R). { rewrite <- (sqrt_square 2) by Lra.lra. apply sqrt_le_1; Lra.lra. }
  rewrite Rabs_left1; Lra.nra.
Qed.
Print Assumptions C96_two_sided_refuted.

(** Fewer than four samples, and a constant series, are never reported as correlated. *)
Theorem C96_never : forall ml s ops lag, se_new exact ml = Ok s -> (Z.of_nat (adds ops) < 2 ^ 32)%Z ->
  exists s', se_run exact s (map to_op ops) = Ok s' /\
  (Z.of_nat (length (held ops)) <= 3 -> iscorrelated95 s' lag = Ok false) /\
  (3 < Z.of_nat (length (held ops)) -> (ml < lag)%nat -> iscorrelated95 s' lag = Abort) /\
  (3 < Z.of_nat (length (held ops)) -> (qvar (held ops) == 0)%Q -> (lag <= ml)%nat -> (lag < length (held ops))%nat -> iscorrelated95 s' lag = Ok false).
Proof.
  intros ml s ops lag En Ha. destruct (run_new ml s ops En Ha) as (s' & Er & I & L). exists s'. split; [exact Er|].
  assert (Cn : st_count exact (se_stats s') = Z.of_nat (length (held ops))) by (unfold st_count; apply Rep_number; [exact (v_rep _ _ _ I)|lia]).
  unfold iscorrelated95. rewrite Cn. split; [|split].
  - intros H. replace (Z.of_nat (length (held ops)) <=? 3) with true by lia. reflexivity.
  - intros H Hl. replace (Z.of_nat (length (held ops)) <=? 3) with false by lia. unfold autocorrelation, autocovariance at 1. rewrite (v_ml _ _ _ I). replace (lag <=? ml)%nat with false by lia. reflexivity.
  - intros H Hv Hl1 Hl2. replace (Z.of_nat (length (held ops)) <=? 3) with false by lia.
    destruct (autocovariance_ok s' ml (held ops) lag I L Hl1 Hl2) as (x & Ex & (p & -> & Ep)). destruct (autocovariance_ok s' ml (held ops) 0 I L ltac:(lia) ltac:(lia)) as (y & Ey & (v & -> & Ev)).
    pose proof (acov_0 (held ops)) as A0. pose proof (acov_bound (held ops) lag Hl2) as [B1 B2].
    unfold autocorrelation. rewrite Ex, Ey. cbn [bind]. change (@ndiv exact (Fin p) (Fin v)) with (xdiv (Fin p) (Fin v)). cbn [xdiv].
    replace (Qeq_bool v 0) with true by (symmetry; apply Qeq_bool_iff; rewrite Ev, A0; exact Hv). replace (Qeq_bool p 0) with true by (symmetry; apply Qeq_bool_iff; rewrite Ep; Lqa.lra). reflexivity.
Qed.
Print Assumptions C96_never.

(** The hypotheses are met, and true is a possible answer: at lag 0. *)
Definition saw : list qop := [QAdd 9; QReset; QAdd 4; QAdd 1; QAdd 7; QAdd 2; QAdd 5].
Example C96_ex : exists s s', se_new exact 2 = Ok s /\ se_run exact s (map to_op saw) = Ok s' /\ 3 < Z.of_nat (length (held saw)) /\ ~ (qvar (held saw) == 0)%Q /\ iscorrelated95 s' 0 = Ok true /\ iscorrelated95 s' 1 = Ok false.
Proof.
  assert (Hn : exists s, se_new exact 2 = Ok s) by (eexists; reflexivity). destruct Hn as (s & En). exists s.
  assert (Hv : ~ (qvar (held saw) == 0)%Q) by (vm_compute; discriminate).
  destruct (C96_partial 2 s saw 0 En ltac:(vm_compute; reflexivity) ltac:(vm_compute; reflexivity) Hv ltac:(lia) ltac:(cbn; lia)) as (s' & b & Er & Eb & T & _).
  destruct (C96_negative 2 s saw 1 En) as (s2 & Er2 & Eb2); [vm_compute; reflexivity|exact Hv|lia|cbn; lia|vm_compute; discriminate|]. rewrite Er in Er2. injection Er2 as <-.
  exists s'. split; [exact En|]. split; [exact Er|]. split; [vm_compute; reflexivity|]. split; [exact Hv|]. split; [|exact Eb2]. rewrite Eb. f_equal. apply T.
  assert (E1 : (sample_r (held saw) 0 == 1)%Q) by (vm_compute; reflexivity). rewrite (Qeq_eqR _ _ E1). replace (Q2R 1) with 1%R by (unfold Q2R; cbn; Lra.lra).
  unfold th. set (e := exp _). assert (E0 : (0 < e)%R) by apply exp_pos. left. apply Rmult_lt_reg_r with (e + 1)%R; [Lra.lra|]. unfold Rdiv. rewrite Rmult_assoc, Rinv_l by Lra.lra. Lra.lra.
Qed.
