(** Newton's iteration of inverseErf in real arithmetic. *)
From Coq Require Import ZArith Bool Reals Lra Lia Psatz QArith Qreals Machin.
From Verif Require Import Common Arith Double_Model RealArith MathFns_Model.
Local Open Scope R_scope.

(** A lower bound of PI, from the series for 2 atan(1/3) + atan(1/7). *)
Fixpoint qpow (q : Q) (n : nat) : Q := match n with O => 1%Q | S n => (q * qpow q n)%Q end.
Definition qterm (n : nat) : Q :=
  ((if Nat.even n then 1 else -1) * ((2 * qpow (1 # 3) (2 * n + 1) + qpow (1 # 7) (2 * n + 1)) * (1 # Pos.of_nat (2 * n + 1))))%Q.
Fixpoint qsum (n : nat) : Q := match n with O => qterm 0 | S m => Qred (qsum m + qterm (S m))%Q end.
Lemma Q2R_pow q n : Q2R (qpow q n) = Q2R q ^ n.
Proof. induction n as [|n IH]; cbn [qpow pow]; [unfold Q2R; cbn; lra|now rewrite Q2R_mult, IH]. Qed.
Lemma even_sign n : (-1) ^ n = if Nat.even n then 1 else -1.
Proof. induction n as [|n IH]; [reflexivity|]. cbn [pow]. rewrite Nat.even_succ, <- Nat.negb_even, IH. destruct (Nat.even n); cbn; ring. Qed.
Lemma Q2R_term n : Q2R (qterm n) = tg_alt PI_2_3_7_tg n.
Proof.
  unfold qterm, tg_alt, PI_2_3_7_tg, Ratan_seq. rewrite !Q2R_mult, Q2R_plus, Q2R_mult, !Q2R_pow, even_sign.
  assert (E1 : Q2R (if Nat.even n then 1 else -1) = if Nat.even n then 1 else -1) by (destruct (Nat.even n); unfold Q2R; cbn; lra). rewrite E1.
  assert (E3 : Q2R (1 # 3) = / 3) by (unfold Q2R; cbn; lra). assert (E7 : Q2R (1 # 7) = / 7) by (unfold Q2R; cbn; lra). assert (E2 : Q2R 2 = 2) by (unfold Q2R; cbn; lra). rewrite E3, E7, E2.
  assert (Ei : Q2R (1 # Pos.of_nat (2 * n + 1)) = / INR (2 * n + 1)). { unfold Q2R. cbn [Qnum Qden]. rewrite Rmult_1_l. f_equal. rewrite INR_IZR_INZ. f_equal. rewrite <- positive_nat_Z. rewrite Nat2Pos.id by lia. reflexivity. }
  rewrite Ei. unfold Rdiv. ring.
Qed.
Lemma Q2R_sum n : Q2R (qsum n) = sum_f_R0 (tg_alt PI_2_3_7_tg) n.
Proof.
  induction n as [|n IH]; cbn [qsum sum_f_R0]; [apply Q2R_term|]. rewrite <- Q2R_term, <- IH, <- Q2R_plus. apply Qeq_eqR. apply Qred_correct.
Qed.
Definition newton_c : R := IZR 886226925452758 / IZR (10 ^ 15).
Lemma pi_bound : 4 * (newton_c * newton_c) <= PI.
Proof.
  pose proof (PI_2_3_7_ineq 9) as (L & _). change (S (2 * 9))%nat with 19%nat in L. rewrite <- Q2R_sum in L.
  assert (B : (((886226925452758 # (10 ^ 15)) * (886226925452758 # (10 ^ 15))) <= qsum 19)%Q) by (vm_compute; discriminate).
  apply Qle_Rle in B. rewrite Q2R_mult in B. assert (E : Q2R (886226925452758 # (10 ^ 15)) = newton_c) by (unfold Q2R, newton_c; cbn [Qnum Qden]; reflexivity). rewrite E in B. lra.
Qed.
Lemma newton_c_pos : 8 / 10 < newton_c < 9 / 10.
Proof. unfold newton_c. change (10 ^ 15)%Z with 1000000000000000%Z. lra. Qed.
Lemma c_le : newton_c <= sqrt PI / 2.
Proof.
  pose proof pi_bound as B. pose proof newton_c_pos as P. assert (2 * newton_c <= sqrt PI); [|lra]. rewrite <- (sqrt_square (2 * newton_c)) by lra. apply sqrt_le_1_alt. lra.
Qed.

Lemma INR_above x : exists n, x < INR n.
Proof.
  exists (Z.to_nat (up x)). destruct (archimed x) as (A & _). rewrite INR_IZR_INZ. apply Rlt_le_trans with (IZR (up x)); [lra|]. apply IZR_le. lia.
Qed.

Section Newton.
Variable erf : R -> R.
Hypothesis erf_deriv : forall x, derivable_pt_lim erf x (2 / sqrt PI * exp (- (x * x))).
Lemma sp_pos : 0 < sqrt PI.
Proof. apply sqrt_lt_R0. apply PI_RGT_0. Qed.
(** Mean value. *)
Lemma erf_mvt a b : a < b -> exists c, a < c < b /\ erf b - erf a = 2 / sqrt PI * exp (- (c * c)) * (b - a).
Proof.
  intros H. destruct (MVT_cor2 erf (fun x => 2 / sqrt PI * exp (- (x * x))) a b H) as (c & E & C); [intros; apply erf_deriv|]. exists c. auto.
Qed.
Lemma slope_pos c : 0 < 2 / sqrt PI * exp (- (c * c)).
Proof. pose proof sp_pos. apply Rmult_lt_0_compat; [apply Rdiv_lt_0_compat; lra|apply exp_pos]. Qed.
Lemma erf_incr a b : a < b -> erf a < erf b.
Proof. intros H. destruct (erf_mvt a b H) as (c & _ & E). pose proof (slope_pos c). nra. Qed.
Lemma erf_incr_le a b : a <= b -> erf a <= erf b.
Proof. intros [H|H]; [left; now apply erf_incr|subst; lra]. Qed.
Lemma erf_decide a b : erf a < erf b -> a < b.
Proof. intros H. destruct (Rlt_or_le a b) as [L|L]; [exact L|]. apply erf_incr_le in L. lra. Qed.

Variable r : R.
Hypothesis r_pos : 0 < r.
Let y := erf r.
Definition nstep (x : R) : R := (y - erf x) * exp (x * x) * newton_c.
Lemma exp_sq_ge1 x : 1 <= exp (x * x).
Proof. pose proof (Rle_0_sqr x) as P. unfold Rsqr in P. destruct P as [P|P]; [left; rewrite <- exp_0; now apply exp_increasing|rewrite <- P, exp_0; lra]. Qed.
(** Left of the root the step does not pass it. *)
Lemma nstep_left x : 0 <= x <= r -> 0 <= nstep x <= r - x.
Proof.
  intros (H0 & H1). pose proof newton_c_pos as C. pose proof (exp_sq_ge1 x) as E. assert (M : 0 <= y - erf x) by (apply erf_incr_le in H1; unfold y; lra). unfold nstep.
  split; [apply Rmult_le_pos; [apply Rmult_le_pos; lra|lra]|].
  destruct H1 as [H1|H1]; [|subst x; unfold y; replace (erf r - erf r) with 0 by ring; lra].
  destruct (erf_mvt x r H1) as (c & (C1 & C2) & Ec). fold y in Ec. rewrite Ec.
  assert (X : exp (- (c * c)) * exp (x * x) <= 1). { rewrite <- exp_plus. rewrite <- exp_0. destruct (Rle_lt_or_eq_dec (- (c * c) + x * x) 0) as [L|L]; [nra|left; now apply exp_increasing|rewrite L; lra]. }
  pose proof sp_pos as SP. pose proof c_le as CL. assert (K : 2 / sqrt PI * newton_c <= 1). { apply Rmult_le_reg_r with (sqrt PI); [exact SP|]. unfold Rdiv. replace (2 * / sqrt PI * newton_c * sqrt PI) with (2 * newton_c) by (field; lra). lra. }
  assert (K0 : 0 < 2 / sqrt PI * newton_c) by (apply Rmult_lt_0_compat; [apply Rdiv_lt_0_compat; lra|lra]).
  replace (2 / sqrt PI * exp (- (c * c)) * (r - x) * exp (x * x) * newton_c) with ((2 / sqrt PI * newton_c) * (exp (- (c * c)) * exp (x * x)) * (r - x)) by ring.
  assert (P : 0 < exp (- (c * c)) * exp (x * x)) by (apply Rmult_lt_0_compat; apply exp_pos).
  assert (Q : (2 / sqrt PI * newton_c) * (exp (- (c * c)) * exp (x * x)) <= 1) by nra. nra.
Qed.
(** Right of the root the step grows with the distance. *)
Lemma nstep_right x x' : r <= x <= x' -> nstep x' <= nstep x <= 0.
Proof.
  intros (H0 & H1). pose proof newton_c_pos as C. unfold nstep. assert (M : erf x - y >= 0) by (apply erf_incr_le in H0; unfold y; lra). assert (M' : erf x <= erf x') by now apply erf_incr_le.
  assert (E : exp (x * x) <= exp (x' * x')). { destruct (Rle_lt_or_eq_dec (x * x) (x' * x')) as [L|L]; [nra|left; now apply exp_increasing|rewrite L; lra]. }
  pose proof (exp_pos (x * x)). split; cycle 1. { assert (0 <= (erf x - y) * exp (x * x)) by (apply Rmult_le_pos; lra). nra. } apply Rmult_le_compat_r; [lra|]. assert ((erf x - y) * exp (x * x) <= (erf x' - y) * exp (x' * x')) by (apply Rmult_le_compat; lra). lra.
Qed.
Variable d : R.
Hypothesis d_pos : 0 < d < 1.
Let eta := newton_c * d * y.
(** Outside the tolerance a step has a minimal length. *)
Lemma nstep_far_left x : 0 < y -> erf x < y * (1 - d) -> eta <= nstep x.
Proof. intros Y H. pose proof newton_c_pos as C. pose proof (exp_sq_ge1 x). unfold nstep, eta. assert (d * y <= y - erf x) by nra. assert (d * y * 1 <= (y - erf x) * exp (x * x)) by (apply Rmult_le_compat; nra). nra. Qed.
Lemma nstep_far_right x : 0 < y -> y * (1 + d) < erf x -> nstep x <= - eta.
Proof. intros Y H. pose proof newton_c_pos as C. pose proof (exp_sq_ge1 x). unfold nstep, eta. assert (d * y <= erf x - y) by nra. assert (d * y * 1 <= (erf x - y) * exp (x * x)) by (apply Rmult_le_compat; nra). nra. Qed.

Definition rerf (x : reals) : reals := match x with RFin a => RFin (erf a) | RUndef => RUndef end.
Let loop fuel x := erf_loop reals rexp rerf fuel (RFin y) (RFin (y * (1 + d))) (RFin (y * (1 - d))) (RFin x) (RFin (erf x)).
Definition within (x : R) : Prop := y * (1 - d) <= erf x <= y * (1 + d).
Lemma loop_step fuel x : loop (S fuel) x = if Rlt_dec (y * (1 + d)) (erf (x + nstep x)) then loop fuel (x + nstep x) else if Rlt_dec (erf (x + nstep x)) (y * (1 - d)) then loop fuel (x + nstep x) else Ok (RFin (x + nstep x)).
Proof.
  unfold loop at 1. cbn [erf_loop]. unfold dec. change (@ndiv reals (of_int 886226925452758) (of_int (10 ^ 15))) with (if Req_EM_T (IZR (10 ^ 15)) 0 then RUndef else RFin newton_c).
  destruct (Req_EM_T (IZR (10 ^ 15)) 0) as [C|C]; [exfalso; apply eq_IZR in C; lia|].
  change (@nadd reals (RFin x) (@nmul reals (@nmul reals (@nsub reals (RFin y) (RFin (erf x))) (rexp (@nmul reals (RFin x) (RFin x)))) (RFin newton_c))) with (RFin (x + nstep x)).
  change (rerf (RFin (x + nstep x))) with (RFin (erf (x + nstep x))). cbn [nlt reals rcmp].
  destruct (Rlt_dec (y * (1 + d)) (erf (x + nstep x))); cbn [orb]; [reflexivity|]. destruct (Rlt_dec (erf (x + nstep x)) (y * (1 - d))); reflexivity.
Qed.
Lemma loop_mono x z : forall fuel, loop fuel x = Ok z -> forall fuel', (fuel <= fuel')%nat -> loop fuel' x = Ok z.
Proof.
  intros fuel. revert x. induction fuel as [|fuel IH]; intros x E fuel' H; [discriminate|]. destruct fuel' as [|fuel']; [lia|]. rewrite loop_step in E |- *.
  destruct (Rlt_dec _ _); [apply (IH _ E); lia|]. destruct (Rlt_dec _ _); [apply (IH _ E); lia|exact E].
Qed.
(** The region the iterates stay in: from 0 to the first iterate [g], whose own step to
    the left is at most r long. *)
Variable g : R.
Hypothesis g_step : - nstep g <= r.
Definition region (x : R) : Prop := 0 <= x <= r \/ r <= x <= g.
Lemma region_step x : region x -> region (x + nstep x).
Proof.
  intros [H|H].
  - left. pose proof (nstep_left x H). lra.
  - pose proof (nstep_right x g H) as N. destruct (Rle_or_lt (x + nstep x) r) as [L|L]; [left|right]; lra.
Qed.
Definition potential (x : R) : R := if Rle_dec x r then r - x else x + eta.
Lemma loop_ends : 0 < y -> forall n x, region x -> ~ within x -> potential x <= INR n * eta -> exists z, loop (S n) x = Ok (RFin z) /\ within z.
Proof.
  intros Y. assert (Eta : 0 < eta) by (unfold eta; pose proof newton_c_pos; apply Rmult_lt_0_compat; [apply Rmult_lt_0_compat|]; lra).
  assert (Wr : within r) by (unfold within; fold y; split; nra).
  induction n as [|n IH]; intros x R W P.
  - exfalso. cbn [INR] in P. unfold potential in P. destruct (Rle_dec x r) as [L|L]; [assert (x = r) by lra; subst; contradiction|destruct R; lra].
  - rewrite loop_step. assert (D : within (x + nstep x) \/ ~ within (x + nstep x)) by (unfold within; destruct (Rle_dec (y * (1 - d)) (erf (x + nstep x))), (Rle_dec (erf (x + nstep x)) (y * (1 + d))); lra).
    destruct D as [D|D].
    + destruct (Rlt_dec (y * (1 + d)) (erf (x + nstep x))) as [L|L]; [unfold within in D; lra|]. destruct (Rlt_dec (erf (x + nstep x)) (y * (1 - d))) as [L2|L2]; [unfold within in D; lra|]. eauto.
    + assert (G : exists z, loop (S n) (x + nstep x) = Ok (RFin z) /\ within z).
      { apply IH; [now apply region_step|exact D|]. rewrite S_INR in P. assert (Q : potential (x + nstep x) <= potential x - eta); [|lra]. unfold potential in *.
        destruct (Rle_dec x r) as [L|L].
        - assert (H : 0 <= x <= r) by (destruct R as [R|R]; lra). pose proof (nstep_left x H) as N. destruct (Rle_dec (x + nstep x) r) as [L2|L2]; [|lra].
          assert (F : erf x < y * (1 - d)). { destruct (Rlt_or_le (erf x) (y * (1 - d))) as [F|F]; [exact F|]. exfalso. apply W. split; [exact F|]. apply Rle_trans with y; [apply erf_incr_le; lra|nra]. }
          pose proof (nstep_far_left x Y F). lra.
        - assert (H : r <= x <= g) by (destruct R as [R|R]; lra). pose proof (nstep_right x g H) as N.
          assert (F : y * (1 + d) < erf x). { destruct (Rlt_or_le (y * (1 + d)) (erf x)) as [F|F]; [exact F|]. exfalso. apply W. split; [|exact F]. apply Rle_trans with y; [nra|apply erf_incr_le; lra]. }
          pose proof (nstep_far_right x Y F). destruct (Rle_dec (x + nstep x) r) as [L2|L2]; lra. }
      destruct (Rlt_dec (y * (1 + d)) (erf (x + nstep x))) as [L|L]; [exact G|]. destruct (Rlt_dec (erf (x + nstep x)) (y * (1 - d))) as [L2|L2]; [exact G|]. exfalso. apply D. unfold within. lra.
Qed.
Lemma loop_converges : 0 < y -> 0 <= g -> exists fuel z, loop fuel g = Ok (RFin z) /\ within z.
Proof.
  intros Y G. assert (Eta : 0 < eta) by (unfold eta; pose proof newton_c_pos; apply Rmult_lt_0_compat; [apply Rmult_lt_0_compat|]; lra).
  assert (Rg : region g) by (unfold region; destruct (Rle_or_lt g r); [left|right]; lra). set (x := g + nstep g).
  destruct (Rlt_dec (y * (1 + d)) (erf x)) as [L|L]; [|destruct (Rlt_dec (erf x) (y * (1 - d))) as [L2|L2]].
  - destruct (INR_above (potential x / eta)) as (n & N). destruct (loop_ends Y n x) as (z & E & W); [now apply region_step|unfold within; lra| |].
    + apply Rmult_le_reg_r with (/ eta); [now apply Rinv_0_lt_compat|]. rewrite Rmult_assoc, Rinv_r by lra. unfold Rdiv in N. lra.
    + exists (S (S n)), z. rewrite loop_step. fold x. destruct (Rlt_dec (y * (1 + d)) (erf x)); [auto|contradiction].
  - destruct (INR_above (potential x / eta)) as (n & N). destruct (loop_ends Y n x) as (z & E & W); [now apply region_step|unfold within; lra| |].
    + apply Rmult_le_reg_r with (/ eta); [now apply Rinv_0_lt_compat|]. rewrite Rmult_assoc, Rinv_r by lra. unfold Rdiv in N. lra.
    + exists (S (S n)), z. rewrite loop_step. fold x. destruct (Rlt_dec (y * (1 + d)) (erf x)); [auto|]. destruct (Rlt_dec (erf x) (y * (1 - d))); [auto|contradiction].
  - exists 1%nat, x. rewrite loop_step. fold x. destruct (Rlt_dec (y * (1 + d)) (erf x)); [contradiction|]. destruct (Rlt_dec (erf x) (y * (1 - d))); [contradiction|]. split; [reflexivity|]. unfold within. lra.
Qed.
End Newton.
