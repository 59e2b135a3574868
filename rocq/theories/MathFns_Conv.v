(** Lemmas about the conversion of a double to an integer. *)
From Coq Require Import ZArith Bool Reals Lra Lia Psatz.
From Coq Require Import ZifyBool.
From Flocq Require Import Core BinarySingleNaN.
From Verif Require Import Common Double64 Clock_Proofs MathFns_Model MathFns_Spec MathFns_Proofs.
Local Open Scope Z_scope.

Lemma rnd_near x y : generic_format radix2 fexp64 y -> (Rabs (rnd x - x) <= Rabs (y - x))%R.
Proof. intros G. exact (proj2 (round_N_pt radix2 fexp64 (fun z => negb (Z.even z)) x) y G). Qed.
Lemma fmt_rnd x : generic_format radix2 fexp64 (rnd x).
Proof. apply generic_format_round; [apply FLT_exp_valid; reflexivity|apply valid_rnd_N]. Qed.
(** From 2^53 on, one half is lost. *)
Lemma half_lost x : generic_format radix2 fexp64 x -> (bpow radix2 53 <= x)%R -> rnd (x + / 2) = x.
Proof.
  intros G H. pose proof (bpow_gt_0 radix2 53) as P. assert (D := rnd_near (x + / 2) x G). replace (x - (x + / 2))%R with (- / 2)%R in D by ring. rewrite Rabs_Ropp, (Rabs_pos_eq (/ 2)) in D by lra. apply Rabs_le_inv in D.
  destruct (fmt_multiple x 1 G) as (a & Ea); [rewrite Rabs_pos_eq; [exact H|lra]|]. destruct (fmt_multiple _ 1 (fmt_rnd (x + / 2))) as (b & Eb); [rewrite Rabs_pos_eq; [|lra]; change (1 + 52) with 53; lra|].
  change (bpow radix2 1) with 2%R in Ea, Eb. rewrite Eb in D |- *. assert (-1 < b - a) by (apply lt_IZR; rewrite minus_IZR; lra). assert (b - a < 1) by (apply lt_IZR; rewrite minus_IZR; lra). replace b with a by lia. congruence.
Qed.
Lemma half_odd n : 2 ^ 52 <= n < 2 ^ 53 -> rnd (IZR n + / 2) = IZR (if Z.even n then n else n + 1).
Proof.
  intros H. assert (Mg : mag radix2 (IZR n + / 2) = 53%Z :> Z).
  { apply mag_unique. change (bpow radix2 (53 - 1)) with (IZR (2 ^ 52)). change (bpow radix2 53) with (IZR (2 ^ 53)). assert (IZR (2 ^ 52) <= IZR n)%R by (apply IZR_le; lia). assert (IZR (n + 1) <= IZR (2 ^ 53))%R by (apply IZR_le; lia). rewrite plus_IZR in H1. assert (0 < IZR (2 ^ 52))%R by (apply IZR_lt; lia). rewrite Rabs_pos_eq; lra. }
  unfold rnd, round, scaled_mantissa, cexp. rewrite Mg. change (fexp64 53) with 0. unfold F2R. cbn [Fnum Fexp]. change (bpow radix2 (- 0)) with 1%R. change (bpow radix2 0) with 1%R. rewrite !Rmult_1_r. f_equal.
  assert (Fl : Zfloor (IZR n + / 2)%R = n) by (apply Zfloor_imp; rewrite plus_IZR; lra).
  assert (Ce : Zceil (IZR n + / 2)%R = n + 1) by (apply Zceil_imp; replace (n + 1 - 1) with n by lia; rewrite plus_IZR; lra).
  unfold Znearest. rewrite Fl, Ce. replace (IZR n + / 2 - IZR n)%R with (/ 2)%R by ring. rewrite Rcompare_Eq by reflexivity. destruct (Z.even n); reflexivity.
Qed.
(** Below 2^52 the integer part after adding one half is right, except just below one half. *)
Lemma half_floor x : generic_format radix2 fexp64 x -> (0 <= x < IZR (2 ^ 52))%R -> x <> (/ 2 - / IZR (2 ^ 54))%R -> Zfloor (rnd (x + / 2)) = Zfloor (x + / 2).
Proof.
  intros G (H0 & H1) Hne. set (k := Zfloor (x + / 2)). pose proof (Zfloor_lb (x + / 2)) as K1. pose proof (Zfloor_ub (x + / 2)) as K2. fold k in K1, K2.
  assert (K0 : 0 <= k) by (apply Zfloor_lub; cbn; lra).
  assert (K3 : k <= 2 ^ 52) by (assert (k < 2 ^ 52 + 1) by (apply lt_IZR; rewrite plus_IZR; lra); lia).
  apply Zfloor_imp. rewrite plus_IZR. split; [replace (IZR k) with (rnd (IZR k)) by (apply rnd_Z; lia); now apply rnd_le|].
  destruct (Z.eq_dec k (2 ^ 52)) as [E52|E52].
  { apply Rle_lt_trans with (rnd (IZR k + / 2)); [apply rnd_le; rewrite E52; lra|]. rewrite half_odd by lia. rewrite E52. change (Z.even (2 ^ 52)) with true. cbv iota. lra. }
  destruct (Rlt_or_le x (IZR k)) as [L|L].
  - apply Rle_lt_trans with (rnd (IZR k + / 2)); [apply rnd_le; lra|]. rewrite rnd_id; [lra|]. replace (IZR k + / 2)%R with (IZR (2 * k + 1) * bpow radix2 (-1))%R; [|rewrite plus_IZR, mult_IZR; change (bpow radix2 (-1)) with (/ 2)%R; field].
    apply fmt_F2R; lia.
  - destruct (Z.eq_dec k 0) as [E|E].
    + rewrite E in *. destruct (Rlt_or_le x (/ 4)) as [Q|Q].
      * apply Rle_lt_trans with (rnd (3 * bpow radix2 (-2))); [apply rnd_le; change (bpow radix2 (-2)) with (/ 4)%R; lra|]. rewrite rnd_id by (apply (fmt_F2R 3 (-2)); lia). change (bpow radix2 (-2)) with (/ 4)%R. lra.
      * destruct (fmt_multiple x (-54) G) as (m & M); [rewrite Rabs_pos_eq by lra; exact Q|]. change (bpow radix2 (-54)) with (/ IZR (2 ^ 54))%R in M.
        assert (P54 : (IZR (2 ^ 54) = 2 * IZR (2 ^ 53))%R) by (rewrite <- mult_IZR; reflexivity). assert (P0 : (0 < IZR (2 ^ 53))%R) by (apply IZR_lt; lia).
        assert (V : (IZR m = x * IZR (2 ^ 54))%R) by (rewrite M; field; lra).
        assert (m < 2 ^ 53) by (apply lt_IZR; rewrite V, P54; cbn in K2; nra).
        assert (m <> 2 ^ 53 - 1). { intros C. apply Hne. rewrite M, C, minus_IZR, P54. field. lra. }
        apply Rle_lt_trans with (rnd (IZR (2 ^ 53 - 1) * bpow radix2 (-53))).
        -- apply rnd_le. change (bpow radix2 (-53)) with (/ IZR (2 ^ 53))%R. rewrite M, P54, minus_IZR. assert (IZR m <= IZR (2 ^ 53 - 2))%R by (apply IZR_le; lia). rewrite minus_IZR in H3.
           apply Rmult_le_reg_r with (2 * IZR (2 ^ 53))%R; [lra|]. rewrite Rmult_plus_distr_r, Rmult_assoc, Rinv_l by lra. replace ((IZR (2 ^ 53) - 1) * / IZR (2 ^ 53) * (2 * IZR (2 ^ 53)))%R with (2 * (IZR (2 ^ 53) - 1))%R by (field; lra). lra.
        -- rewrite rnd_id by (apply fmt_F2R; lia). change (bpow radix2 (-53)) with (/ IZR (2 ^ 53))%R. rewrite minus_IZR. replace ((IZR (2 ^ 53) - 1) * / IZR (2 ^ 53))%R with (1 - / IZR (2 ^ 53))%R by (field; lra). pose proof (Rinv_0_lt_compat _ P0). lra.
    + assert (K4 : (1 <= IZR k)%R) by (apply IZR_le; lia). assert (X0 : x <> 0%R) by lra.
      destruct (mag radix2 x) as (M & HM). specialize (HM X0). rewrite Rabs_pos_eq in HM by exact H0. destruct HM as (M1 & M2).
      assert (Mlo : 0 < M) by (apply (lt_bpow radix2); change (bpow radix2 0) with 1%R; lra).
      assert (Mhi : M - 1 < 52) by (apply (lt_bpow radix2); change (bpow radix2 52) with (IZR (2 ^ 52)); lra).
      destruct (fmt_multiple x (M - 53) G) as (m & Em); [rewrite Rabs_pos_eq by exact H0; replace (M - 53 + 52) with (M - 1) by lia; exact M1|].
      assert (B : (bpow radix2 (M - 53) * IZR (2 ^ (52 - M)) = / 2)%R). { change (2 ^ (52 - M)) with (radix_val radix2 ^ (52 - M)). rewrite IZR_Zpower by lia. rewrite <- bpow_plus. replace (M - 53 + (52 - M)) with (-1) by lia. reflexivity. }
      assert (E2 : (x + / 2 = IZR (m + 2 ^ (52 - M)) * bpow radix2 (M - 53))%R) by (rewrite plus_IZR, Em, <- B; ring).
      assert (K5 : k + 1 <= 2 ^ M). { assert (k < 2 ^ M) by (apply lt_IZR; change 2 with (radix_val radix2); rewrite IZR_Zpower by lia; lra). lia. }
      assert (F : generic_format radix2 fexp64 (x + / 2)).
      { rewrite E2. apply fmt_F2R; [|lia]. assert (m + 2 ^ (52 - M) < 2 ^ 53).
        - apply lt_IZR. apply Rmult_lt_reg_r with (bpow radix2 (M - 53)); [apply bpow_gt_0|]. rewrite <- E2. change (IZR (2 ^ 53)) with (bpow radix2 53). rewrite <- bpow_plus. replace (53 + (M - 53)) with M by lia. apply IZR_le in K5. rewrite plus_IZR in K5. change 2 with (radix_val radix2) in K5. rewrite IZR_Zpower in K5 by lia. lra.
        - assert (0 < m + 2 ^ (52 - M)); [|lia]. apply lt_IZR. apply Rmult_lt_reg_r with (bpow radix2 (M - 53)); [apply bpow_gt_0|]. rewrite <- E2. rewrite Rmult_0_l. lra. }
      rewrite rnd_id by exact F. lra.
Qed.

(** The integer convertDoubleLong computes, as a function of the real value. *)
Definition conv (x : R) : Z := Ztrunc (rnd (x + (if Rle_bool 0 x then / 2 else - / 2)))%R.
Lemma conv_pos x : (0 <= x)%R -> conv x = Zfloor (rnd (x + / 2)).
Proof.
  intros H. unfold conv. rewrite Rle_bool_true by exact H. apply Ztrunc_floor. rewrite <- rnd_0. apply rnd_le. lra.
Qed.
Lemma conv_opp x : (0 < x)%R -> conv (- x) = - conv x.
Proof.
  intros H. unfold conv. rewrite Rle_bool_false by lra. rewrite Rle_bool_true by lra. replace (- x + - / 2)%R with (- (x + / 2))%R by ring. now rewrite rnd_opp, Ztrunc_opp.
Qed.
Lemma half_lost_abs (d : double) : (bpow radix2 53 <= Rabs (B2R d))%R -> rnd (B2R d + (if Rle_bool 0 (B2R d) then / 2 else - / 2))%R = B2R d.
Proof.
  intros H. pose proof (bpow_gt_0 radix2 53) as P. case Rle_bool_spec; intros C.
  - rewrite Rabs_pos_eq in H by exact C. apply half_lost; [apply fmt_B2R|exact H].
  - rewrite Rabs_left in H by exact C. replace (B2R d + - / 2)%R with (- (- B2R d + / 2))%R by ring. rewrite rnd_opp, half_lost; [ring|apply fmt_opp, fmt_B2R|exact H].
Qed.
Lemma signed_half (d : double) : is_finite d = true ->
  let h := ddiv (if Bleb (of_Z 0) d then of_Z 1 else of_Z (-1)) (of_Z 2) in
  B2R h = (if Rle_bool 0 (B2R d) then / 2 else - / 2)%R /\ is_finite h = true.
Proof.
  intros F. destruct (of_Z_exact 0) as (E0 & F0); [lia|]. rewrite bleb_R by assumption. rewrite E0. cbv zeta. destruct (Rle_bool 0 (B2R d)).
  - apply half_spec.
  - destruct half_spec as (E & Fh). assert (X : ddiv (of_Z (-1)) (of_Z 2) = Bopp (ddiv (of_Z 1) (of_Z 2))) by (apply (B2SF_inj 53 1024); vm_compute; reflexivity). rewrite X. split; [now rewrite B2R_Bopp, E|now rewrite is_finite_Bopp].
Qed.
Lemma convert_conv (d : double) : is_finite d = true -> convertDoubleLong d = if (- 2 ^ 63 <=? conv (B2R d)) && (conv (B2R d) <? 2 ^ 63) then Ok (conv (B2R d)) else UB.
Proof.
  intros F. destruct (signed_half d F) as (Eh & Fh). unfold convertDoubleLong. set (h := ddiv _ (of_Z 2)) in *. cbv zeta.
  assert (Hh : (Rabs (if Rle_bool 0 (B2R d) then / 2 else - / 2) = / 2)%R) by (destruct (Rle_bool 0 (B2R d)); [|rewrite Rabs_Ropp]; rewrite Rabs_pos_eq; lra).
  assert (S : B2R (dadd d h) = rnd (B2R d + B2R h) /\ is_finite (dadd d h) = true).
  { destruct (Rle_or_lt (bpow radix2 53) (Rabs (B2R d))) as [L|L].
    - pose proof (Bplus_correct 53 1024 prec_gt_0_53 prec_lt_emax_53 mode_NE d h F Fh) as B. change (round radix2 fexp64 (round_mode mode_NE) (B2R d + B2R h)) with (rnd (B2R d + B2R h)) in B.
      rewrite Rlt_bool_true in B; [destruct B as (B1 & B2 & _); split; assumption|]. rewrite Eh, half_lost_abs by exact L. apply abs_B2R_lt_emax.
    - apply (dadd_spec d h 54 F Fh); [lia|]. eapply Rle_trans; [apply Rabs_triang|]. rewrite Eh, Hh. change (bpow radix2 54) with (IZR (2 ^ 54)). change (bpow radix2 53) with (IZR (2 ^ 53)) in L. assert (IZR (2 ^ 53) + 1 <= IZR (2 ^ 54))%R by (rewrite <- plus_IZR; apply IZR_le; lia). lra. }
  destruct S as (S1 & S2). unfold to_long. rewrite S2, trunc_Z, S1, Eh. reflexivity.
Qed.
Lemma conv_below x : generic_format radix2 fexp64 x -> (0 <= x < IZR (2 ^ 52))%R -> x <> (/ 2 - / IZR (2 ^ 54))%R -> conv x = Zfloor (x + / 2).
Proof. intros G H N. rewrite conv_pos by lra. now apply half_floor. Qed.
Lemma conv_half : conv (/ 2 - / IZR (2 ^ 54)) = 1.
Proof.
  set (P := IZR (2 ^ 54)). assert (HP : (4 < P)%R) by (apply IZR_lt; lia). assert (I : (0 < / P < / 4)%R) by (split; [apply Rinv_0_lt_compat; lra|apply Rinv_lt_contravar; nra]).
  rewrite conv_pos by lra. replace (/ 2 - / P + / 2)%R with (1 - / P)%R by (field; lra).
  assert (R0 : rnd (1 - / P) = 1%R).
  { assert (Mg : mag radix2 (1 - / P) = 0%Z :> Z) by (apply mag_unique; rewrite Rabs_pos_eq by lra; change (bpow radix2 (0 - 1)) with (/ 2)%R; change (bpow radix2 0) with 1%R; lra).
    unfold rnd, round, scaled_mantissa, cexp. rewrite Mg. change (fexp64 0) with (-53). unfold F2R. cbn [Fnum Fexp]. change (bpow radix2 (- (-53))) with (IZR (2 ^ 53)). change (bpow radix2 (-53)) with (/ IZR (2 ^ 53))%R.
    assert (E : (P = 2 * IZR (2 ^ 53))%R) by (unfold P; rewrite <- mult_IZR; reflexivity). assert (P53 : (0 < IZR (2 ^ 53))%R) by (apply IZR_lt; lia).
    replace ((1 - / P) * IZR (2 ^ 53))%R with (IZR (2 ^ 53 - 1) + / 2)%R by (rewrite minus_IZR, E; field; lra).
    assert (Fl : Zfloor (IZR (2 ^ 53 - 1) + / 2)%R = 2 ^ 53 - 1) by (apply Zfloor_imp; rewrite plus_IZR; lra).
    assert (Ce : Zceil (IZR (2 ^ 53 - 1) + / 2)%R = 2 ^ 53) by (apply Zceil_imp; rewrite !minus_IZR; lra).
    unfold Znearest. rewrite Fl, Ce. replace (IZR (2 ^ 53 - 1) + / 2 - IZR (2 ^ 53 - 1))%R with (/ 2)%R by ring. rewrite Rcompare_Eq by reflexivity. change (negb (Z.even (2 ^ 53 - 1))) with true. cbv iota. field. lra. }
  rewrite R0. apply (Zfloor_IZR 1).
Qed.
Lemma conv_middle n : 2 ^ 52 <= n < 2 ^ 53 -> conv (IZR n) = if Z.even n then n else n + 1.
Proof. intros H. rewrite conv_pos by (apply IZR_le; lia). rewrite half_odd by exact H. apply Zfloor_IZR. Qed.
Lemma conv_above x : generic_format radix2 fexp64 x -> (bpow radix2 53 <= x)%R -> exists n, x = IZR n /\ conv x = n.
Proof.
  intros G H. pose proof (bpow_gt_0 radix2 53). rewrite conv_pos by lra. rewrite half_lost by assumption. destruct (fmt_multiple x 1 G) as (m & E); [rewrite Rabs_pos_eq by lra; exact H|]. exists (2 * m). change (bpow radix2 1) with 2%R in E.
  assert (X : x = IZR (2 * m)) by (rewrite mult_IZR; lra). split; [exact X|]. rewrite X. apply Zfloor_IZR.
Qed.
Lemma rounds_floor x : (0 <= x)%R -> rounds_to x (Zfloor (x + / 2)).
Proof.
  intros H. pose proof (Zfloor_lb (x + / 2)). pose proof (Zfloor_ub (x + / 2)). set (n := Zfloor (x + / 2)) in *. split; [unfold nearest; apply Rabs_le; lra|].
  intros E. assert (x - IZR n = - / 2)%R by (destruct (Rcase_abs (x - IZR n)) as [C|C]; [rewrite Rabs_left in E by lra; lra|rewrite Rabs_pos_eq in E by lra; lra]). rewrite !Rabs_pos_eq by lra. lra.
Qed.
Lemma rounds_Z n : rounds_to (IZR n) n.
Proof. split; unfold nearest; rewrite Rminus_diag_eq by reflexivity; rewrite Rabs_R0; lra. Qed.
Lemma rounds_opp x n : rounds_to x n -> rounds_to (- x) (- n).
Proof.
  unfold rounds_to, nearest. rewrite opp_IZR. replace (- x - - IZR n)%R with (- (x - IZR n))%R by ring. now rewrite !Rabs_Ropp.
Qed.
Lemma awkward_opp x : awkward (- x) -> awkward x.
Proof.
  intros [H|(k & E & O & B)]; [left; now rewrite <- Rabs_Ropp|]. right. exists (- k). rewrite opp_IZR, <- E, Z.odd_opp. split; [ring|]. split; [exact O|lia].
Qed.
Lemma conv_rounds_pos x : generic_format radix2 fexp64 x -> (0 <= x)%R -> ~ awkward x -> rounds_to x (conv x).
Proof.
  intros G H N. destruct (Rlt_or_le x (IZR (2 ^ 52))) as [L|L].
  - rewrite conv_below; [now apply rounds_floor|exact G|lra|]. intros E. apply N. left. rewrite E. apply Rabs_pos_eq. rewrite <- E. exact H.
  - destruct (Rlt_or_le x (bpow radix2 53)) as [L2|L2].
    + destruct (fmt_multiple x 0 G) as (n & E); [rewrite Rabs_pos_eq by exact H; exact L|]. change (bpow radix2 0) with 1%R in E. rewrite Rmult_1_r in E. subst x. change (bpow radix2 53) with (IZR (2 ^ 53)) in L2. apply le_IZR in L. apply lt_IZR in L2.
      rewrite conv_middle by lia. destruct (Z.even n) eqn:Ev; [apply rounds_Z|]. exfalso. apply N. right. exists n. split; [reflexivity|]. rewrite <- Z.negb_even, Ev. split; [reflexivity|]. assert (n <> 2 ^ 52) by (intros C; rewrite C in Ev; discriminate). lia.
    + destruct (conv_above x G L2) as (n & -> & ->). apply rounds_Z.
Qed.
Lemma conv_rounds x : generic_format radix2 fexp64 x -> ~ awkward x -> rounds_to x (conv x).
Proof.
  intros G N. destruct (Rle_or_lt 0 x) as [P|P]; [now apply conv_rounds_pos|].
  replace x with (- - x)%R by ring. rewrite conv_opp by lra. apply rounds_opp, conv_rounds_pos; [now apply fmt_opp|lra|]. intros A. apply N. now apply awkward_opp.
Qed.
Lemma conv_awkward_pos x : (0 <= x)%R -> awkward x -> (/ 2 < Rabs (x - IZR (conv x)) <= 1)%R /\ Z.abs (conv x) <= 2 ^ 53.
Proof.
  intros H [E|(k & -> & O & B)].
  - rewrite Rabs_pos_eq in E by exact H. rewrite E, conv_half. assert (HP : (4 < IZR (2 ^ 54))%R) by (apply IZR_lt; lia). assert (I : (0 < / IZR (2 ^ 54) < / 4)%R) by (split; [apply Rinv_0_lt_compat; lra|apply Rinv_lt_contravar; nra]). rewrite Rabs_left; [split; [split|]; lra || lia|lra].
  - apply le_IZR in H. rewrite conv_middle by lia. rewrite <- Z.negb_odd, O. cbn [negb]. rewrite plus_IZR. rewrite Rabs_left; [split; [split|]; lra || lia|lra].
Qed.
Lemma conv_awkward x : awkward x -> (/ 2 < Rabs (x - IZR (conv x)) <= 1)%R /\ Z.abs (conv x) <= 2 ^ 53.
Proof.
  intros A. destruct (Rle_or_lt 0 x) as [P|P]; [now apply conv_awkward_pos|].
  assert (A' : awkward (- x)) by (apply awkward_opp; now rewrite Ropp_involutive). destruct (conv_awkward_pos (- x)) as (H1 & H2); [lra|exact A'|].
  assert (E : conv x = - conv (- x)) by (rewrite <- conv_opp by lra; now rewrite Ropp_involutive). rewrite E, opp_IZR. replace (x - - IZR (conv (- x)))%R with (- (- x - IZR (conv (- x))))%R by ring. rewrite Rabs_Ropp. split; [exact H1|lia].
Qed.
(** The nearest integer to a double of magnitude below 2^63 fits. *)
Lemma rounds_fits (d : double) n : (Rabs (B2R d) < IZR (2 ^ 63))%R -> rounds_to (B2R d) n -> - 2 ^ 63 < n < 2 ^ 63.
Proof.
  intros H (N & _). unfold nearest in N. destruct (Rlt_or_le (Rabs (B2R d)) (bpow radix2 52)) as [L|L].
  - assert (Rabs (IZR n) < IZR (2 ^ 53))%R.
    { replace (IZR n) with (B2R d + - (B2R d - IZR n))%R by ring. eapply Rle_lt_trans; [apply Rabs_triang|]. rewrite Rabs_Ropp. change (bpow radix2 52) with (IZR (2 ^ 52)) in L. assert (IZR (2 ^ 52) + 1 <= IZR (2 ^ 53))%R by (rewrite <- plus_IZR; apply IZR_le; lia). lra. }
    rewrite <- abs_IZR in H0. apply lt_IZR in H0. lia.
  - destruct (fmt_multiple (B2R d) 0 (fmt_B2R d)) as (m & E); [exact L|]. change (bpow radix2 0) with 1%R in E. rewrite Rmult_1_r in E. rewrite E in N, H. rewrite <- minus_IZR in N. rewrite <- abs_IZR in N, H. apply lt_IZR in H. assert (Z.abs (m - n) < 1) by (apply lt_IZR; lra). lia.
Qed.
