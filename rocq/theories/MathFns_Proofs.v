(** Lemmas about the numeric helpers. *)
From Coq Require Import ZArith Bool Reals Lra Lia Psatz.
From Coq Require Import ZifyBool.
From Flocq Require Import Core BinarySingleNaN Sterbenz.
From Verif Require Import Common Double64 Clock_Proofs MathFns_Model MathFns_Spec.
Local Open Scope Z_scope.

Lemma fmt_B2R (d : double) : generic_format radix2 fexp64 (B2R d).
Proof. apply (generic_format_B2R 53 1024). Qed.
(** A double of at least 2^(k+52) is a multiple of 2^k. *)
Lemma fmt_multiple x k : generic_format radix2 fexp64 x -> (bpow radix2 (k + 52) <= Rabs x)%R -> exists m, x = (IZR m * bpow radix2 k)%R.
Proof.
  intros G H. change fexp64 with (FLT_exp (-1074) 53) in G. apply FLT_format_generic in G; [|reflexivity]. destruct G as [[m e] E Hm He]. cbn [Fnum Fexp] in *. unfold F2R in E. cbn [Fnum Fexp] in E.
  destruct (Z_le_gt_dec k e) as [L|L].
  - exists (m * 2 ^ (e - k)). rewrite mult_IZR. change 2 with (radix_val radix2). rewrite IZR_Zpower by lia. rewrite Rmult_assoc, <- bpow_plus. replace (e - k + k) with e by lia. exact E.
  - exfalso. rewrite E in H. rewrite Rabs_mult, (Rabs_pos_eq (bpow radix2 e)) in H by apply bpow_ge_0. rewrite <- abs_IZR in H.
    assert (IZR (Z.abs m) < bpow radix2 53)%R by (change (bpow radix2 53) with (IZR (2 ^ 53)); now apply IZR_lt).
    assert (IZR (Z.abs m) * bpow radix2 e < bpow radix2 (53 + e))%R by (rewrite bpow_plus; apply Rmult_lt_compat_r; [apply bpow_gt_0|assumption]).
    assert (bpow radix2 (53 + e) <= bpow radix2 (k + 52))%R by (apply bpow_le; lia). lra.
Qed.
Lemma fmt_opp x : generic_format radix2 fexp64 x -> generic_format radix2 fexp64 (- x).
Proof. apply generic_format_opp. Qed.
Lemma rnd_opp x : rnd (- x) = (- rnd x)%R.
Proof. unfold rnd. apply round_NE_opp. Qed.
Lemma trunc_Z (x : double) : Btrunc x = Ztrunc (B2R x).
Proof.
  pose proof (Btrunc_correct 53 1024 prec_lt_emax_53 x) as B. apply eq_IZR. rewrite B.
  unfold round, F2R, scaled_mantissa, cexp, FIX_exp. cbn. now rewrite !Rmult_1_r.
Qed.
Lemma frac_fmt x : generic_format radix2 fexp64 x -> generic_format radix2 fexp64 (x - IZR (Ztrunc x)).
Proof.
  intros G. destruct (Rle_or_lt 0 x) as [P|P].
  - rewrite Ztrunc_floor by exact P. rewrite <- (Rmult_1_r (_ - _)). change 1%R with (bpow radix2 0). apply frac_format; [lia|exact G|exact P].
  - rewrite Ztrunc_ceil by lra. unfold Zceil. rewrite opp_IZR. replace (x - - IZR (Zfloor (- x)))%R with (- (- x - IZR (Zfloor (- x))))%R by ring. apply fmt_opp.
    rewrite <- (Rmult_1_r (_ - _)). change 1%R with (bpow radix2 0). apply frac_format; [lia|now apply fmt_opp|lra].
Qed.
Lemma trunc_fmt x : generic_format radix2 fexp64 x -> generic_format radix2 fexp64 (IZR (Ztrunc x)).
Proof.
  intros G. destruct (Rle_or_lt (bpow radix2 52) (Rabs x)) as [P|P].
  - destruct (fmt_multiple x 0 G) as (m & E); [exact P|]. cbn in E. rewrite Rmult_1_r in E. rewrite E at 1. rewrite Ztrunc_IZR, <- E. exact G.
  - apply fmt_Z. rewrite <- Ztrunc_abs. rewrite Ztrunc_floor by apply Rabs_pos. apply le_IZR. apply Rle_trans with (Rabs x); [apply Zfloor_lb|]. change (bpow radix2 52) with (IZR (2 ^ 52)) in P. apply Rlt_le. eapply Rlt_trans; [exact P|]. apply IZR_lt. lia.
Qed.
Lemma trunc_frac x : (Rabs (x - IZR (Ztrunc x)) < 1)%R.
Proof.
  destruct (Rle_or_lt 0 x) as [P|P].
  - rewrite Ztrunc_floor by exact P. pose proof (Zfloor_lb x). pose proof (Zfloor_ub x). rewrite Rabs_pos_eq; lra.
  - rewrite Ztrunc_ceil by lra. unfold Zceil. rewrite opp_IZR. pose proof (Zfloor_lb (- x)). pose proof (Zfloor_ub (- x)). rewrite Rabs_left1; lra.
Qed.
Definition big : R := IZR (2 ^ 63 + 1).
Lemma trunc_big x : (Rabs x <= big)%R -> Z.abs (Ztrunc x) <= 2 ^ 64.
Proof.
  intros H. rewrite <- Ztrunc_abs. rewrite Ztrunc_floor by apply Rabs_pos. apply le_IZR. apply Rle_trans with (Rabs x); [apply Zfloor_lb|]. eapply Rle_trans; [exact H|]. apply IZR_le. lia.
Qed.
(** modf is exact. *)
Lemma modf_spec (d : double) : is_finite d = true -> (Rabs (B2R d) <= big)%R ->
  B2R (modf_frac d) = (B2R d - IZR (Ztrunc (B2R d)))%R /\ is_finite (modf_frac d) = true.
Proof.
  intros F H. assert (E : modf_frac d = dsub d (of_Z (Btrunc d))) by (destruct d; try discriminate F; reflexivity). rewrite E, trunc_Z.
  destruct (of_Z_spec (Ztrunc (B2R d)) (trunc_big _ H)) as (E1 & F1). rewrite rnd_id in E1 by (apply trunc_fmt, fmt_B2R).
  pose proof (trunc_frac (B2R d)) as T.
  destruct (dsub_spec d (of_Z (Ztrunc (B2R d))) 0 F F1) as (E2 & F2); [lia|rewrite E1; change (bpow radix2 0) with 1%R; lra|].
  split; [|exact F2]. rewrite E2, E1. apply rnd_id, frac_fmt, fmt_B2R.
Qed.
Lemma half_B2R : B2R (ddiv (of_Z 1) (of_Z 2)) = (/ 2)%R.
Proof. apply half_spec. Qed.
Lemma one_spec : B2R (of_Z 1) = 1%R /\ is_finite (of_Z 1) = true.
Proof. apply of_Z_exact. lia. Qed.
Lemma opp_half : B2R (Bopp (ddiv (of_Z 1) (of_Z 2)) : double) = (- / 2)%R /\ is_finite (Bopp (ddiv (of_Z 1) (of_Z 2)) : double) = true.
Proof. destruct half_spec as (E & F). split; [now rewrite B2R_Bopp, E|now rewrite is_finite_Bopp]. Qed.
(** roundingErrorPart: the difference to an integer nearest to d. *)
Lemma rep_spec (d : double) : is_finite d = true -> (Rabs (B2R d) <= big)%R ->
  exists n, B2R (roundingErrorPart d) = (B2R d - IZR n)%R /\ nearest (B2R d) n /\ is_finite (roundingErrorPart d) = true.
Proof.
  intros F H. destruct (modf_spec d F H) as (E1 & F1). unfold roundingErrorPart. cbv zeta. destruct half_spec as (Eh & Fh). destruct one_spec as (E1' & F1'). destruct opp_half as (Eo & Fo).
  pose proof (trunc_frac (B2R d)) as T. apply Rabs_def2 in T. set (f := (B2R d - IZR (Ztrunc (B2R d)))%R) in *. unfold nearest.
  rewrite (bltb_R (ddiv (of_Z 1) (of_Z 2)) (modf_frac d)) by assumption. rewrite Eh, E1. case Rlt_bool_spec; intros C.
  - destruct (dsub_spec (modf_frac d) (of_Z 1) 0 F1 F1') as (E2 & F2); [lia|rewrite E1, E1'; change (bpow radix2 0) with 1%R; rewrite Rabs_left1; lra|].
    assert (X : B2R (dsub (modf_frac d) (of_Z 1)) = (f - 1)%R).
    { rewrite E2, E1, E1'. apply rnd_id. apply (sterbenz radix2 (FLT_exp (-1074) 53)); [rewrite <- E1; apply fmt_B2R|apply (fmt_Z 1); lia|lra]. }
    rewrite bltb_R by assumption. rewrite X, Eo. rewrite Rlt_bool_false by lra. exists (Ztrunc (B2R d) + 1). rewrite plus_IZR, X. split; [unfold f; ring|]. split; [|exact F2]. replace (B2R d - (IZR (Ztrunc (B2R d)) + 1))%R with (f - 1)%R by (unfold f; ring). rewrite Rabs_left1; lra.
  - rewrite bltb_R by assumption. rewrite E1, Eo. case Rlt_bool_spec; intros C2.
    + destruct (dadd_spec (modf_frac d) (of_Z 1) 0 F1 F1') as (E2 & F2); [lia|rewrite E1, E1'; change (bpow radix2 0) with 1%R; rewrite Rabs_pos_eq; lra|].
      assert (X : B2R (dadd (modf_frac d) (of_Z 1)) = (f + 1)%R).
      { rewrite E2, E1, E1'. apply rnd_id. replace (f + 1)%R with (1 - - f)%R by ring. apply (sterbenz radix2 (FLT_exp (-1074) 53)); [apply (fmt_Z 1); lia|apply fmt_opp; rewrite <- E1; apply fmt_B2R|lra]. }
      exists (Ztrunc (B2R d) - 1). rewrite minus_IZR, X. split; [unfold f; ring|]. split; [|exact F2]. replace (B2R d - (IZR (Ztrunc (B2R d)) - 1))%R with (f + 1)%R by (unfold f; ring). rewrite Rabs_pos_eq; lra.
    + exists (Ztrunc (B2R d)). split; [exact E1|]. split; [|exact F1]. fold f. apply Rabs_le. lra.
Qed.
Lemma nearest_unique x m n : nearest x n -> (Rabs (x - IZR m) < / 2)%R -> m = n.
Proof.
  unfold nearest. intros H1 H2. assert (Rabs (IZR m - IZR n) < 1)%R. { replace (IZR m - IZR n)%R with ((x - IZR n) - (x - IZR m))%R by ring. eapply Rle_lt_trans; [apply Rabs_triang|]. rewrite Rabs_Ropp. lra. }
  rewrite <- minus_IZR, <- abs_IZR in H. apply lt_IZR in H. lia.
Qed.
Lemma sixteenth_spec : B2R sixteenth = (/ 16)%R /\ is_finite sixteenth = true.
Proof.
  unfold sixteenth. destruct one_spec as (E1 & F1). destruct (of_Z_exact 16) as (E2 & F2); [lia|].
  destruct (ddiv_spec (of_Z 1) (of_Z 16) 1 F1) as (E & F); [rewrite E2; lra|lia| |].
  - rewrite E1, E2. rewrite Rabs_pos_eq by lra. change (bpow radix2 1) with 2%R. lra.
  - split; [|exact F]. rewrite E, E1, E2. replace (1 / 16)%R with (IZR 1 * bpow radix2 (-4))%R by (change (bpow radix2 (-4)) with (/ 16)%R; lra).
    rewrite rnd_id by (apply fmt_F2R; lia). change (bpow radix2 (-4)) with (/ 16)%R. lra.
Qed.
(** The test fabs(roundingErrorPart(d)) < 1.0/16.0. *)
Lemma rep_near (d : double) : is_finite d = true -> (Rabs (B2R d) <= big)%R ->
  (Bltb (Babs (roundingErrorPart d)) sixteenth = true <-> near_integer (B2R d)) /\ Bleb sixteenth (Babs (roundingErrorPart d)) = negb (Bltb (Babs (roundingErrorPart d)) sixteenth).
Proof.
  intros F H. destruct (rep_spec d F H) as (n & E & N & F1). destruct sixteenth_spec as (E2 & F2).
  assert (Fa : is_finite (Babs (roundingErrorPart d) : double) = true) by now rewrite is_finite_Babs.
  rewrite bltb_R, bleb_R by assumption. rewrite B2R_Babs, E, E2. split.
  - case Rlt_bool_spec; intros C; split; intros X; auto; try discriminate; [now exists n|]. exfalso. destruct X as (m & X). assert (m = n) by (apply (nearest_unique (B2R d)); [exact N|lra]). subst m. lra.
  - case Rlt_bool_spec; intros C; [now rewrite Rle_bool_false by exact C|now rewrite Rle_bool_true by exact C].
Qed.

(** Adding 1/16 to an integer above 2^49 is lost. *)
Lemma tie_lost n : generic_format radix2 fexp64 (IZR n) -> 2 ^ 49 < Z.abs n -> rnd (IZR n + / 16) = IZR n.
Proof.
  intros G H. set (x := (IZR n + / 16)%R). set (r := rnd x).
  assert (Hx : (bpow radix2 49 <= Rabs x)%R).
  { change (bpow radix2 49) with (IZR (2 ^ 49)). unfold x. destruct (Z_le_gt_dec 0 n).
    - rewrite Rabs_pos_eq; [|apply IZR_le in l; lra]. assert (IZR (2 ^ 49) <= IZR n)%R by (apply IZR_le; lia). lra.
    - assert (IZR n <= IZR (- 2 ^ 49 - 1))%R by (apply IZR_le; lia). rewrite minus_IZR, opp_IZR in H0. assert (0 < IZR (2 ^ 49))%R by (apply IZR_lt; lia). rewrite Rabs_left1; lra. }
  assert (Hr : (bpow radix2 49 <= Rabs r)%R).
  { apply abs_round_ge_generic; [apply FLT_exp_valid; reflexivity|apply valid_rnd_N|apply fmt_bpow; lia|exact Hx]. }
  assert (Gr : generic_format radix2 fexp64 r) by (apply generic_format_round; [apply FLT_exp_valid; reflexivity|apply valid_rnd_N]).
  assert (D : (Rabs (r - x) <= / 16)%R).
  { pose proof (round_N_pt radix2 fexp64 (fun z => negb (Z.even z)) x) as [_ Q]. specialize (Q (IZR n) G). change (round radix2 fexp64 (Znearest (fun z => negb (Z.even z))) x) with r in Q. eapply Rle_trans; [exact Q|]. unfold x. replace (IZR n - (IZR n + / 16))%R with (- / 16)%R by ring. rewrite Rabs_Ropp, Rabs_pos_eq; lra. }
  destruct (fmt_multiple r (-3) Gr) as (m & E); [exact Hr|]. change (bpow radix2 (-3)) with (/ 8)%R in E.
  assert (M : m = 8 * n \/ m = 8 * n + 1).
  { rewrite E in D. unfold x in D. apply Rabs_le_inv in D. assert (-1 < m - 8 * n) by (apply lt_IZR; rewrite minus_IZR, mult_IZR; lra). assert (m - 8 * n < 2) by (apply lt_IZR; rewrite minus_IZR, mult_IZR; lra). lia. }
  destruct M as [M|M]; [rewrite E, M, mult_IZR; field|]. exfalso.
  destruct (Rle_or_lt (bpow radix2 50) (Rabs x)) as [L|L].
  - assert (Hr' : (bpow radix2 50 <= Rabs r)%R).
    { apply abs_round_ge_generic; [apply FLT_exp_valid; reflexivity|apply valid_rnd_N|apply fmt_bpow; lia|exact L]. }
    destruct (fmt_multiple r (-2) Gr) as (m' & E'); [exact Hr'|]. change (bpow radix2 (-2)) with (/ 4)%R in E'. assert (m = 2 * m') by (apply eq_IZR; rewrite mult_IZR; lra). lia.
  - assert (Mg : mag radix2 x = 50%Z :> Z) by (apply mag_unique; change (50 - 1) with 49; lra).
    assert (R0 : r = (IZR (8 * n) * bpow radix2 (-3))%R).
    { unfold r, rnd, round, scaled_mantissa, cexp. rewrite Mg. change (fexp64 50) with (-3). unfold F2R. cbn [Fnum Fexp]. f_equal. f_equal. unfold x. change (bpow radix2 (- (-3))) with 8%R.
      assert (Fl : Zfloor ((IZR n + / 16) * 8)%R = 8 * n) by (apply Zfloor_imp; rewrite plus_IZR, mult_IZR; lra).
      unfold Znearest. rewrite Fl. rewrite mult_IZR. replace ((IZR n + / 16) * 8 - 8 * IZR n)%R with (/ 2)%R by field. rewrite Rcompare_Eq by reflexivity. rewrite Z.even_mul. reflexivity. }
    change (bpow radix2 (-3)) with (/ 8)%R in R0. assert (m = 8 * n) by (apply eq_IZR; lra). lia.
Qed.
Lemma tie_lost' n : generic_format radix2 fexp64 (IZR n) -> 2 ^ 49 < Z.abs n -> rnd (IZR n - / 16) = IZR n.
Proof.
  intros G H. replace (IZR n - / 16)%R with (- (IZR (- n) + / 16))%R by (rewrite opp_IZR; ring). rewrite rnd_opp, tie_lost; [rewrite opp_IZR; ring|rewrite opp_IZR; now apply fmt_opp|lia].
Qed.
Lemma near_Z n : near_integer (IZR n).
Proof. exists n. rewrite Rminus_diag_eq by reflexivity. rewrite Rabs_R0. lra. Qed.
Lemma big_integer x : generic_format radix2 fexp64 x -> (bpow radix2 49 <= Rabs x)%R -> near_integer x -> exists n, x = IZR n.
Proof.
  intros G H (n & N). destruct (fmt_multiple x (-3) G) as (m & E); [exact H|]. change (bpow radix2 (-3)) with (/ 8)%R in E. exists n. rewrite E in N |- *. apply Rabs_def2 in N.
  assert (-1 < m - 8 * n) by (apply lt_IZR; rewrite minus_IZR, mult_IZR; lra). assert (m - 8 * n < 1) by (apply lt_IZR; rewrite minus_IZR, mult_IZR; lra). replace m with (8 * n) by lia. rewrite mult_IZR. field.
Qed.
Lemma not_near_up n v : (IZR n + / 16 <= v <= IZR n + / 8)%R -> ~ near_integer v.
Proof.
  intros H (m & M). apply Rabs_def2 in M. assert (0 < m - n) by (apply lt_IZR; rewrite minus_IZR; lra). assert (m - n < 1) by (apply lt_IZR; rewrite minus_IZR; lra). lia.
Qed.
Lemma not_near_down n v : (IZR n - / 8 <= v <= IZR n - / 16)%R -> ~ near_integer v.
Proof.
  intros H (m & M). apply Rabs_def2 in M. assert (-1 < m - n) by (apply lt_IZR; rewrite minus_IZR; lra). assert (m - n < 0) by (apply lt_IZR; rewrite minus_IZR; lra). lia.
Qed.
Lemma fmt_eighth n s : Z.abs n <= 2 ^ 49 -> Z.abs s <= 8 -> generic_format radix2 fexp64 (IZR n + IZR s * / 8).
Proof.
  intros H Hs. replace (IZR n + IZR s * / 8)%R with (IZR (8 * n + s) * bpow radix2 (-3))%R; [|rewrite plus_IZR, mult_IZR; change (bpow radix2 (-3)) with (/ 8)%R; field]. apply fmt_F2R; lia.
Qed.
Lemma fmt_sixteenth n s : Z.abs (16 * n + s) < 2 ^ 53 -> generic_format radix2 fexp64 (IZR n + IZR s * / 16).
Proof.
  intros H. replace (IZR n + IZR s * / 16)%R with (IZR (16 * n + s) * bpow radix2 (-4))%R; [|rewrite plus_IZR, mult_IZR; change (bpow radix2 (-4)) with (/ 16)%R; field]. apply fmt_F2R; lia.
Qed.
(** Up to 2^49 one of the two shifted numbers is far from the integers. *)
Lemma shifted_far x : (Rabs x <= IZR (2 ^ 49))%R -> near_integer x -> ~ near_integer (rnd (x + / 16)) \/ ~ near_integer (rnd (x - / 16)).
Proof.
  intros H (n & N). apply Rabs_le_inv in H. apply Rabs_def2 in N.
  assert (Hn : - 2 ^ 49 <= n <= 2 ^ 49).
  { rewrite <- opp_IZR in H. split; [assert (- 2 ^ 49 - 1 < n) by (apply lt_IZR; rewrite minus_IZR; lra)|assert (n < 2 ^ 49 + 1) by (apply lt_IZR; rewrite plus_IZR; lra)]; lia. }
  assert (Cases : ((IZR n <= x)%R /\ n < 2 ^ 49) \/ ((x <= IZR n)%R /\ - 2 ^ 49 < n)).
  { destruct (Rle_or_lt (IZR n) x) as [L|L].
    - destruct (Z.eq_dec n (2 ^ 49)) as [E|E]; [right; rewrite E; split; [apply H|lia]|left; split; [exact L|lia]].
    - right. split; [lra|]. destruct (Z.eq_dec n (- 2 ^ 49)) as [E|E]; [|lia]. exfalso. rewrite E, opp_IZR in L. lra. }
  destruct Cases as [(L & B)|(L & B)]; [left; apply (not_near_up n)|right; apply (not_near_down n)]; split.
  - replace (IZR n + / 16)%R with (rnd (IZR n + / 16)); [apply rnd_le; lra|]. apply rnd_id. replace (/ 16)%R with (1 * / 16)%R by ring. apply (fmt_sixteenth n 1). lia.
  - replace (IZR n + / 8)%R with (rnd (IZR n + / 8)); [apply rnd_le; lra|]. apply rnd_id. replace (/ 8)%R with (1 * / 8)%R by ring. apply (fmt_eighth n 1); lia.
  - replace (IZR n - / 8)%R with (rnd (IZR n - / 8)); [apply rnd_le; lra|]. apply rnd_id. replace (IZR n - / 8)%R with (IZR n + -1 * / 8)%R by ring. apply (fmt_eighth n (-1)); lia.
  - replace (IZR n - / 16)%R with (rnd (IZR n - / 16)); [apply rnd_le; lra|]. apply rnd_id. replace (IZR n - / 16)%R with (IZR n + -1 * / 16)%R by ring. apply (fmt_sixteenth n (-1)). lia.
Qed.
Lemma max_spec : B2R (of_Z (2 ^ 63 - 1)) = IZR (2 ^ 63) /\ is_finite (of_Z (2 ^ 63 - 1)) = true.
Proof.
  assert (E : of_Z (2 ^ 63 - 1) = of_Z (2 ^ 63)) by (apply (B2SF_inj 53 1024); vm_compute; reflexivity). rewrite E.
  destruct (of_Z_spec (2 ^ 63)) as (E1 & F1); [lia|]. split; [|exact F1]. rewrite E1. apply rnd_id. change (IZR (2 ^ 63)) with (bpow radix2 63). apply fmt_bpow. lia.
Qed.
(** What isDoubleIntegral decides for a number. *)
Lemma integral_spec (d : double) : is_finite d = true -> isDoubleIntegral d 8 = Ok true <-> (Rabs (B2R d) <= IZR (2 ^ 49))%R /\ near_integer (B2R d).
Proof.
  intros F. unfold isDoubleIntegral. change (negb ((0 <? 8) && (8 =? 8))) with false. cbv iota. destruct max_spec as (Em & Fm).
  assert (Fa : is_finite (Babs d : double) = true) by now rewrite is_finite_Babs.
  rewrite (bleb_R (of_Z (2 ^ 63 - 1)) (Babs d)) by assumption. rewrite Em, B2R_Babs. case Rle_bool_spec; intros L.
  { split; [discriminate|]. intros (C & _). exfalso. assert (IZR (2 ^ 49) < IZR (2 ^ 63))%R by (apply IZR_lt; lia). lra. }
  assert (L1 : (Rabs (B2R d) <= big)%R) by (unfold big; rewrite plus_IZR; lra).
  destruct (rep_near d F L1) as (N & ->). destruct (Bltb (Babs (roundingErrorPart d)) sixteenth); cbn [negb].
  2: { split; [discriminate|]. intros (_ & C). apply N in C. discriminate. }
  assert (N0 : near_integer (B2R d)) by now apply N. clear N. destruct sixteenth_spec as (Es & Fs).
  assert (B1 : (Rabs (B2R d + / 16) <= bpow radix2 64)%R).
  { eapply Rle_trans; [apply Rabs_triang|]. change (bpow radix2 64) with (IZR (2 ^ 64)). rewrite (Rabs_pos_eq (/ 16)) by lra. assert (IZR (2 ^ 63) + 1 <= IZR (2 ^ 64))%R by (rewrite <- plus_IZR; apply IZR_le; lia). lra. }
  assert (B2 : (Rabs (B2R d - / 16) <= bpow radix2 64)%R).
  { eapply Rle_trans; [apply Rabs_triang|]. rewrite Rabs_Ropp. change (bpow radix2 64) with (IZR (2 ^ 64)). rewrite (Rabs_pos_eq (/ 16)) by lra. assert (IZR (2 ^ 63) + 1 <= IZR (2 ^ 64))%R by (rewrite <- plus_IZR; apply IZR_le; lia). lra. }
  rewrite <- Es in B1, B2.
  destruct (dadd_spec d sixteenth 64 F Fs) as (Ep & Fp); [lia|exact B1|]. destruct (dsub_spec d sixteenth 64 F Fs) as (Eq & Fq); [lia|exact B2|].
  rewrite Es in Ep, Eq.
  destruct (Rle_or_lt (Rabs (B2R d)) (IZR (2 ^ 49))) as [S|S].
  - assert (P63 : (IZR (2 ^ 49) + 1 <= IZR (2 ^ 50))%R) by (rewrite <- plus_IZR; apply IZR_le; lia).
    assert (Bb : (IZR (2 ^ 50) <= big)%R) by (apply IZR_le; lia).
    assert (A1 : (Rabs (rnd (B2R d + / 16)) <= big)%R).
    { eapply Rle_trans; [|exact Bb]. apply (rnd_abs_le _ 50); [lia|]. eapply Rle_trans; [apply Rabs_triang|]. change (bpow radix2 50) with (IZR (2 ^ 50)). rewrite (Rabs_pos_eq (/ 16)) by lra. lra. }
    assert (A2 : (Rabs (rnd (B2R d - / 16)) <= big)%R).
    { eapply Rle_trans; [|exact Bb]. apply (rnd_abs_le _ 50); [lia|]. eapply Rle_trans; [apply Rabs_triang|]. rewrite Rabs_Ropp. change (bpow radix2 50) with (IZR (2 ^ 50)). rewrite (Rabs_pos_eq (/ 16)) by lra. lra. }
    destruct (rep_near (dadd d sixteenth) Fp) as (Np & _); [rewrite Ep; exact A1|]. destruct (rep_near (dsub d sixteenth) Fq) as (Nq & _); [rewrite Eq; exact A2|].
    rewrite Ep in Np. rewrite Eq in Nq.
    destruct (Bltb (Babs (roundingErrorPart (dadd d sixteenth))) sixteenth), (Bltb (Babs (roundingErrorPart (dsub d sixteenth))) sixteenth); cbn [andb]; try (split; auto; fail).
    exfalso. destruct (shifted_far (B2R d) S N0) as [C|C]; apply C; [now apply Np|now apply Nq].
  - destruct (big_integer (B2R d) (fmt_B2R d)) as (n & En); [change (bpow radix2 49) with (IZR (2 ^ 49)); lra|exact N0|].
    assert (Hn : 2 ^ 49 < Z.abs n) by (apply lt_IZR; rewrite abs_IZR, <- En; exact S).
    pose proof (fmt_B2R d) as G. rewrite En in G.
    rewrite En, tie_lost in Ep by assumption. rewrite En, tie_lost' in Eq by assumption.
    destruct (rep_near (dadd d sixteenth) Fp) as (Np & _); [rewrite Ep, <- En; exact L1|]. destruct (rep_near (dsub d sixteenth) Fq) as (Nq & _); [rewrite Eq, <- En; exact L1|].
    rewrite Ep in Np. rewrite Eq in Nq. destruct Np as (_ & Np), Nq as (_ & Nq). rewrite Np, Nq by apply near_Z. cbn [andb]. split; [discriminate|]. intros (C & _). exfalso. lra.
Qed.
