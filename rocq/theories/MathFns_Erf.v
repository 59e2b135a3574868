(** Lemmas about inverseErf in doubles. *)
From Coq Require Import ZArith Bool Reals Lra Lia Psatz.
From Coq Require Import ZifyBool.
From Flocq Require Import Core BinarySingleNaN Relative Sterbenz.
From Verif Require Import Common Double64 Arith Double_Model Clock_Proofs MathFns_Model MathFns_Spec MathFns_Proofs.
Local Open Scope Z_scope.

(** The loop ends at a point that passes its test. *)
Lemma erf_loop_exit (A : arith) (exp_ erf_ : A -> A) : forall fuel y u l x0 y0 x,
  erf_loop A exp_ erf_ fuel y u l x0 y0 = Ok x -> nlt u (erf_ x) = false /\ nlt (erf_ x) l = false.
Proof.
  induction fuel as [|fuel IH]; intros y u l x0 y0 x; cbn [erf_loop]; [discriminate|].
  set (x1 := nadd x0 _). destruct (nlt u (erf_ x1)) eqn:E1; cbn [orb]; [apply IH|]. destruct (nlt (erf_ x1) l) eqn:E2; [apply IH|].
  intros E. apply Ok_inj in E || injection E as <-. now subst || auto.
Qed.
Definition c_up : double := dec ieee 100000000000001 14.
Definition c_lo : double := dec ieee 99999999999999 14.
Lemma c_up_spec : B2R c_up = (IZR 4503599627370541 * bpow radix2 (-52))%R /\ is_finite c_up = true.
Proof.
  split; [|vm_compute; reflexivity]. rewrite <- SF2R_B2SF. replace (B2SF c_up) with (SpecFloat.S754_finite false 4503599627370541 (-52)) by (vm_compute; reflexivity). reflexivity.
Qed.
Lemma c_lo_spec : B2R c_lo = (IZR 9007199254740902 * bpow radix2 (-53))%R /\ is_finite c_lo = true.
Proof.
  split; [|vm_compute; reflexivity]. rewrite <- SF2R_B2SF. replace (B2SF c_lo) with (SpecFloat.S754_finite false 9007199254740902 (-53)) by (vm_compute; reflexivity). reflexivity.
Qed.
Lemma rnd_rel x : (bpow radix2 (-1022) <= Rabs x)%R -> (Rabs (rnd x - x) <= bpow radix2 (-53) * Rabs x)%R.
Proof.
  intros H. pose proof (relative_error_N_FLT radix2 (-1074) 53 (eq_refl : 0 < 53) (fun z => negb (Z.even z)) x H) as Q.
  change (/ 2 * bpow radix2 (- (53) + 1))%R with (bpow radix2 (-1) * bpow radix2 (-52))%R in Q. rewrite <- bpow_plus in Q. exact Q.
Qed.
(** The two bounds. *)
Lemma erf_bounds (y : double) : is_finite y = true -> (bpow radix2 (-1000) <= Rabs (B2R y) < 1)%R ->
  let u := dmul y c_up in let l := dmul y c_lo in
  is_finite u = true /\ is_finite l = true /\ exists a b,
    B2R u = (B2R y * a)%R /\ B2R l = (B2R y * b)%R /\ (1 < a < 1 + 11 / 10 ^ 15)%R /\ (1 - 11 / 10 ^ 15 < b < 1)%R.
Proof.
  intros F (H1 & H2). cbv zeta. destruct c_up_spec as (Eu & Fu). destruct c_lo_spec as (El & Fl).
  change (bpow radix2 (-52)) with (/ IZR (2 ^ 52))%R in Eu. change (bpow radix2 (-53)) with (/ IZR (2 ^ 53))%R in El. cbn [Z.pow Z.pow_pos Pos.iter Z.mul Pos.mul] in Eu, El.
  assert (Y0 : (0 < Rabs (B2R y))%R) by (pose proof (bpow_gt_0 radix2 (-1000)); lra).
  assert (Cu : (1 < B2R c_up < 1 + 102 / 10 ^ 16)%R) by (rewrite Eu; lra). assert (Cl : (1 - 102 / 10 ^ 16 < B2R c_lo < 1)%R) by (rewrite El; lra).
  assert (G : forall c : double, is_finite c = true -> (/ 2 < B2R c < 2)%R -> is_finite (dmul y c) = true /\ exists e, B2R (dmul y c) = (B2R y * (B2R c * (1 + e)))%R /\ (Rabs e <= / IZR (2 ^ 53))%R).
  { intros c Fc Hc. destruct (dmul_spec y c 1 F Fc) as (E & Fm); [lia| |].
    - rewrite Rabs_mult, (Rabs_pos_eq (B2R c)) by lra. change (bpow radix2 1) with 2%R. nra.
    - split; [exact Fm|]. set (p := (B2R y * B2R c)%R) in *. assert (Pp : p <> 0%R). { intros C. apply Rmult_integral in C. destruct C as [C|C]; [rewrite C, Rabs_R0 in Y0|]; lra. }
      assert (Q : (bpow radix2 (-1022) <= Rabs p)%R). { unfold p. rewrite Rabs_mult, (Rabs_pos_eq (B2R c)) by lra. assert (bpow radix2 (-1000) * / 2 <= Rabs (B2R y) * B2R c)%R by (apply Rmult_le_compat; [apply bpow_ge_0| | |]; lra). change (/ 2)%R with (bpow radix2 (-1)) in H. rewrite <- bpow_plus in H. eapply Rle_trans; [|exact H]. apply bpow_le. lia. }
      pose proof (rnd_rel p Q) as R. exists ((rnd p - p) / p)%R. split; [rewrite E; unfold p; fold p; replace (B2R y * (B2R c * (1 + (rnd p - p) / p)))%R with (p * (1 + (rnd p - p) / p))%R by (unfold p; ring); field; exact Pp|].
      unfold Rdiv. rewrite Rabs_mult, Rabs_inv. apply Rmult_le_reg_r with (Rabs p); [now apply Rabs_pos_lt|]. rewrite Rmult_assoc, Rinv_l by (now apply Rabs_no_R0). rewrite Rmult_1_r. exact R. }
  destruct (G c_up Fu) as (Fu' & e1 & E1 & B1); [lra|]. destruct (G c_lo Fl) as (Fl' & e2 & E2 & B2); [lra|].
  split; [exact Fu'|]. split; [exact Fl'|]. exists (B2R c_up * (1 + e1))%R, (B2R c_lo * (1 + e2))%R. split; [exact E1|]. split; [exact E2|].
  apply Rabs_le_inv in B1, B2. cbn [Z.pow Z.pow_pos Pos.iter Z.mul Pos.mul] in B1, B2. rewrite Eu, El. split; lra.
Qed.

Section Doubles.
Variables dsqrt dlog dexp derf : double -> double.
Let inv := inverseErf ieee dsqrt dlog dexp derf.
Lemma dabs_ieee (y : double) : is_finite y = true -> B2R (dabs ieee y) = Rabs (B2R y) /\ is_finite (dabs ieee y) = true.
Proof.
  intros F. unfold dabs. destruct (of_Z_exact 0) as (E0 & F0); [lia|]. change (@nlt ieee y (of_int 0)) with (Bltb y (of_Z 0)). rewrite bltb_R by assumption. rewrite E0. change (IZR 0) with 0%R. case Rlt_bool_spec; intros C.
  - change (@nopp ieee y) with (Bopp y : double). rewrite B2R_Bopp, is_finite_Bopp. rewrite Rabs_left by exact C. auto.
  - rewrite Rabs_pos_eq by exact C. auto.
Qed.
Lemma inv_open fuel (y : double) : is_finite y = true -> (Rabs (B2R y) < 1)%R ->
  inv fuel y = erf_loop ieee dexp derf fuel y (dmul y c_up) (dmul y c_lo) (erf_guess ieee dsqrt dlog y) (derf (erf_guess ieee dsqrt dlog y)).
Proof.
  intros F H. unfold inv, inverseErf. destruct (dabs_ieee y F) as (E & Fa). destruct one_spec as (E1 & F1). change (@nle ieee (of_int 1) (dabs ieee y)) with (Bleb (of_Z 1) (dabs ieee y)).
  rewrite bleb_R by assumption. rewrite E1, E, Rle_bool_false by exact H. reflexivity.
Qed.
Lemma inv_outside fuel (y : double) : is_nan y = false -> (is_finite y = true -> (1 <= Rabs (B2R y))%R) -> inv fuel y = Ok B754_nan.
Proof.
  intros N H. unfold inv, inverseErf. change (@nle ieee (of_int 1) (dabs ieee y)) with (Bleb (of_Z 1) (dabs ieee y)). destruct (is_finite y) eqn:F.
  - destruct (dabs_ieee y F) as (E & Fa). destruct one_spec as (E1 & F1). rewrite bleb_R by assumption. rewrite E1, E, Rle_bool_true by auto. f_equal.
  - destruct y as [|[]| |]; try discriminate; (replace (Bleb (of_Z 1) _) with true by (vm_compute; reflexivity)); f_equal.
Qed.
(** A comparison result in terms of reals, infinities included. *)
Lemma between (u l v : double) : is_finite u = true -> is_finite l = true -> is_nan v = false -> Bltb u v = false -> Bltb v l = false ->
  is_finite v = true /\ (B2R l <= B2R v <= B2R u)%R.
Proof.
  intros Fu Fl N H1 H2. destruct (is_finite v) eqn:Fv.
  - split; [reflexivity|]. rewrite bltb_R in H1, H2 by assumption. revert H1 H2. case Rlt_bool_spec; [discriminate|]. case Rlt_bool_spec; [discriminate|]. intros. lra.
  - exfalso. destruct v as [|[]| |]; try discriminate.
    + destruct l; try discriminate Fl; cbn in H2; discriminate.
    + destruct u; try discriminate Fu; cbn in H1; discriminate.
Qed.
Lemma inv_positive fuel (y x : double) : is_finite y = true -> (bpow radix2 (-1000) <= B2R y < 1)%R -> inv fuel y = Ok x -> is_nan (derf x) = false ->
  is_finite (derf x) = true /\ (Rabs (B2R (derf x) - B2R y) <= 11 / 10 ^ 15 * B2R y)%R.
Proof.
  intros F (H1 & H2) E N. pose proof (bpow_gt_0 radix2 (-1000)) as P. rewrite inv_open in E; [|exact F|rewrite Rabs_pos_eq; lra]. apply erf_loop_exit in E. destruct E as (X1 & X2).
  destruct (erf_bounds y F) as (Fu & Fl & a & b & Eu & El & Ha & Hb); [rewrite Rabs_pos_eq; lra|].
  destruct (between _ _ _ Fu Fl N X1 X2) as (Fv & B). split; [exact Fv|]. rewrite Eu, El in B. apply Rabs_le. split; nra.
Qed.
Lemma inv_zero fuel (y x : double) : is_finite y = true -> B2R y = 0%R -> inv fuel y = Ok x -> is_nan (derf x) = false -> is_finite (derf x) = true /\ B2R (derf x) = 0%R.
Proof.
  intros F H E N. rewrite inv_open in E; [|exact F|rewrite H, Rabs_R0; lra]. apply erf_loop_exit in E. destruct E as (X1 & X2). destruct c_up_spec as (_ & Fu). destruct c_lo_spec as (_ & Fl).
  assert (Z0 : forall c : double, is_finite c = true -> is_finite (dmul y c) = true /\ B2R (dmul y c) = 0%R).
  { intros c Fc. destruct (dmul_spec y c 1 F Fc) as (E & Fm); [lia|rewrite H, Rmult_0_l, Rabs_R0; apply bpow_ge_0|]. split; [exact Fm|]. rewrite E, H, Rmult_0_l. apply rnd_0. }
  destruct (Z0 c_up Fu) as (Fu' & Eu). destruct (Z0 c_lo Fl) as (Fl' & El). destruct (between _ _ _ Fu' Fl' N X1 X2) as (Fv & B). split; [exact Fv|]. lra.
Qed.
Lemma inv_negative fuel (y x : double) : is_finite y = true -> (-1 < B2R y <= - bpow radix2 (-1000))%R -> inv fuel y = Ok x -> is_nan (derf x) = true.
Proof.
  intros F (H1 & H2) E. pose proof (bpow_gt_0 radix2 (-1000)) as P. rewrite inv_open in E; [|exact F|rewrite Rabs_left; lra]. apply erf_loop_exit in E. destruct E as (X1 & X2).
  destruct (erf_bounds y F) as (Fu & Fl & a & b & Eu & El & Ha & Hb); [rewrite Rabs_left; lra|].
  destruct (is_nan (derf x)) eqn:N; [reflexivity|]. exfalso. destruct (between _ _ _ Fu Fl N X1 X2) as (Fv & B). rewrite Eu, El in B. nra.
Qed.
Lemma erf_loop_outcome (A : arith) (exp_ erf_ : A -> A) : forall fuel y u l x0 y0, erf_loop A exp_ erf_ fuel y u l x0 y0 = Fuel \/ exists x, erf_loop A exp_ erf_ fuel y u l x0 y0 = Ok x.
Proof.
  induction fuel as [|fuel IH]; intros; cbn [erf_loop]; [auto|]. destruct (nlt u _ || nlt _ l); [apply IH|eauto].
Qed.
(** The argument inverseUnitNormalCDF passes on. *)
Lemma cdf_argument (x : double) : is_finite x = true -> (bpow radix2 (-54) < B2R x < / 2)%R ->
  let y := dsub (dmul (of_Z 2) x) (of_Z 1) in is_finite y = true /\ (-1 < B2R y <= - bpow radix2 (-1000))%R.
Proof.
  intros F (H1 & H2). cbv zeta. destruct (of_Z_exact 2) as (E2 & F2); [lia|]. destruct one_spec as (E1 & F1). pose proof (bpow_gt_0 radix2 (-54)) as P.
  destruct (dmul_spec (of_Z 2) x 1 F2 F) as (Em & Fm); [lia|rewrite E2, Rabs_mult, (Rabs_pos_eq 2), (Rabs_pos_eq (B2R x)) by lra; change (bpow radix2 1) with 2%R; lra|].
  assert (G2 : generic_format radix2 fexp64 (2 * B2R x)).
  { destruct (fmt_multiple (B2R x) (-107) (fmt_B2R x)) as (m & M); [rewrite Rabs_pos_eq by lra; apply Rle_trans with (bpow radix2 (-54)); [apply bpow_le; lia|lra]|].
    pose proof (fmt_B2R x) as G. change 2%R with (bpow radix2 1). rewrite Rmult_comm. change fexp64 with (FLT_exp (-1074) 53) in *. apply FLT_format_generic in G; [|reflexivity]. destruct G as [[mm ee] E Hm He]. rewrite E. unfold F2R. cbn [Fnum Fexp] in *. rewrite Rmult_assoc, <- bpow_plus. apply fmt_F2R; [exact Hm|lia]. }
  rewrite E2, rnd_id in Em by exact G2.
  destruct (dsub_spec (dmul (of_Z 2) x) (of_Z 1) 1 Fm F1) as (Ey & Fy); [lia|rewrite Em, E1, Rabs_left by lra; change (bpow radix2 1) with 2%R; lra|]. rewrite Em, E1 in Ey. split; [exact Fy|]. rewrite Ey. split.
  - apply Rlt_le_trans with (-1 + bpow radix2 (-53))%R; [pose proof (bpow_gt_0 radix2 (-53)); lra|].
    assert (G3 : generic_format radix2 fexp64 (-1 + bpow radix2 (-53))). { replace (-1 + bpow radix2 (-53))%R with (IZR (- 2 ^ 53 + 1) * bpow radix2 (-53))%R by (rewrite plus_IZR, opp_IZR; change (bpow radix2 (-53)) with (/ IZR (2 ^ 53))%R; field; apply not_0_IZR; lia). apply fmt_F2R; lia. }
    rewrite <- (rnd_id _ G3). apply rnd_le. assert (B : (bpow radix2 (-53) = 2 * bpow radix2 (-54))%R) by (change 2%R with (bpow radix2 1); rewrite <- bpow_plus; reflexivity). lra.
  - assert (S53 : (bpow radix2 (-1000) <= bpow radix2 (-53))%R) by (apply bpow_le; lia). assert (S1 : (bpow radix2 (-53) <= bpow radix2 (-1))%R) by (apply bpow_le; lia). change (bpow radix2 (-1)) with (/ 2)%R in S1.
    destruct (Rlt_or_le (2 * B2R x) (/ 2)) as [L|L].
    + apply Rle_trans with (rnd (- / 2)); [apply rnd_le; lra|]. replace (- / 2)%R with (IZR (-1) * bpow radix2 (-1))%R by (change (bpow radix2 (-1)) with (/ 2)%R; lra). rewrite rnd_id by (apply fmt_F2R; lia). change (bpow radix2 (-1)) with (/ 2)%R. lra.
    + rewrite rnd_id by (apply (sterbenz radix2 (FLT_exp (-1074) 53)); [exact G2|apply (fmt_Z 1); lia|lra]).
      destruct (fmt_multiple _ (-53) G2) as (m & M); [rewrite Rabs_pos_eq by lra; change (bpow radix2 (-53 + 52)) with (/ 2)%R; exact L|]. rewrite M.
      assert (m < 2 ^ 53). { apply lt_IZR. apply Rmult_lt_reg_r with (bpow radix2 (-53)); [apply bpow_gt_0|]. rewrite <- M. change (IZR (2 ^ 53)) with (bpow radix2 53). rewrite <- bpow_plus. change (bpow radix2 (53 + -53)) with 1%R. lra. }
      assert (IZR m <= IZR (2 ^ 53) - 1)%R by (rewrite <- minus_IZR; apply IZR_le; lia). assert (IZR m * bpow radix2 (-53) <= (IZR (2 ^ 53) - 1) * bpow radix2 (-53))%R by (apply Rmult_le_compat_r; [apply bpow_ge_0|assumption]).
      assert (IZR (2 ^ 53) * bpow radix2 (-53) = 1)%R by (change (IZR (2 ^ 53)) with (bpow radix2 53); rewrite <- bpow_plus; reflexivity). lra.
Qed.
End Doubles.
