(** C81: drawRandomLogNormal fits a log-normal distribution that is cut off at an upper limit and draws
    from it; in exact arithmetic. *)
From Coq Require Import List ZArith Bool Reals Lra Lia Psatz.
From Coquelicot Require Import Coquelicot.
From Verif Require Import Common Arith RealArith Double_Model MathFns_Model MathFns_RealSpec MathFns_Gauss LogNormal_Model LogNormal_Spec LogNormal_Gauss LogNormal_Proofs.
Import ListNotations.
Local Open Scope R_scope.

Local Notation rmoment := (momentLogNormal reals rsqrt rexp real_erf).
Local Notation rpdf := (logNormal reals rsqrt rlog rexp real_erf (RFin PI)).
Local Notation rsolve := (solveLogNormal reals rsqrt rlog rexp real_erf).
Local Notation rmain := (main reals rsqrt rlog rexp real_erf).
Local Notation V a b := (@Vec reals (RFin a) (RFin b)).

(** momentLogNormal gives the moments of the distribution below the limit; they exist and are unique,
    and lie between 0 and the power of the limit. *)
Theorem C81_moment : forall r m s U, 0 < s -> 0 < U ->
  exists M, rmoment (RFin m) (RFin s) (RFin (ln U)) (Z.of_nat r) = RFin M /\ moment r m s U M /\
    (forall M', moment r m s U M' -> M' = M) /\ 0 < M <= U ^ r.
Proof.
  intros r m s U Hs HU. exists (moment_formula m s (ln U) r). split; [apply rmoment_eq; lra|]. rewrite formula_below by assumption.
  assert (K : moment r m s U (mass m s r U / mass m s 0 U)) by now apply moment_mass. split; [exact K|]. split; [|exact (moment_below m s Hs r U _ HU K)]. intros M' H. now apply moment_mass in H.
Qed.
Print Assumptions C81_moment.
Example C81_moment_ex : exists M, moment 2 (-1) 1 3 M /\ 0 < M <= 3 ^ 2.
Proof. destruct (C81_moment 2 (-1) 1 3) as (M & _ & A & _ & B); [lra|lra|]. eauto. Qed.

(** For a negative log_sigma it gives those of the distribution above the limit. *)
Theorem C81_moment_above : forall r m s U, s < 0 -> 0 < U ->
  exists M, rmoment (RFin m) (RFin s) (RFin (ln U)) (Z.of_nat r) = RFin M /\ moment_above r m (- s) U M /\
    (forall M', moment_above r m (- s) U M' -> M' = M).
Proof.
  intros r m s U Hs HU. exists (moment_formula m s (ln U) r). split; [apply rmoment_eq; lra|]. rewrite formula_above by assumption.
  split; [apply above_mass; lra|]. intros M' H. apply above_mass in H; lra.
Qed.
Print Assumptions C81_moment_above.
Example C81_moment_above_ex : exists M, moment_above 1 0 (- (-1)) 2 M /\ 2 <= M.
Proof. destruct (C81_moment_above 1 0 (-1) 2) as (M & _ & A & _); [lra|lra|]. exists M. split; [exact A|]. apply (mean_above 0 (- (-1))); [lra|lra|exact A]. Qed.

(** logNormal is the density of the distribution below the limit, from a lower cut-off on. *)
Theorem C81_density_partial : forall m s U x, 0 < s -> 0 < U ->
  (0 < x < U -> m * (1 / 1000000) <= x ->
     exists N, whole 0 m s U N /\ 0 < N /\ rpdf (RFin x) (RFin m) (RFin s) (RFin U) = RFin (density m s x / N)) /\
  (U <= x -> rpdf (RFin x) (RFin m) (RFin s) (RFin U) = RFin 0).
Proof.
  intros m s U x Hs HU. split.
  - intros Hx L. exists (mass m s 0 U). split; [now apply mass_whole|]. split; [apply mass_pos|]. now apply pdf_inside.
  - intros L. unfold logNormal. rewrite rdec by lia. cbn [nmul reals rop]. rewrite rlt, rle. destruct (Rlt_dec _ _); [reflexivity|]. destruct (Rle_dec U x); [reflexivity|contradiction].
Qed.
Print Assumptions C81_density_partial.
Example C81_density_ex : exists N, 0 < N /\ rpdf (RFin 1) (RFin (-1)) (RFin 1) (RFin 2) = RFin (density (-1) 1 1 / N).
Proof. destruct (C81_density_partial (-1) 1 2 1) as (A & _); [lra|lra|]. destruct A as (N & _ & P & E); [lra|lra|]. eauto. Qed.
(** The lower cut-off compares x with a millionth of the logarithm of the mean: for a positive log_mean
    the density is reported as 0 where it is not, and at 0 it is not defined for a negative one. *)
Theorem C81_density_refuted : forall m s U, 0 < s -> 0 < U ->
  (0 < m -> exists x, 0 < x < U /\ rpdf (RFin x) (RFin m) (RFin s) (RFin U) = RFin 0 /\ 0 < density m s x) /\
  (m <= 0 -> rpdf (RFin 0) (RFin m) (RFin s) (RFin U) = RUndef).
Proof.
  intros m s U Hs HU. split.
  - intros Hm. exists (Rmin (U / 2) (m * (1 / 2000000))). assert (P : 0 < Rmin (U / 2) (m * (1 / 2000000))) by (apply Rmin_glb_lt; lra).
    pose proof (Rmin_l (U / 2) (m * (1 / 2000000))). pose proof (Rmin_r (U / 2) (m * (1 / 2000000))). split; [lra|]. split; [|now apply density_pos].
    unfold logNormal. rewrite rdec by lia. change (IZR 1 / IZR (10 ^ 6)) with (1 / 1000000). cbn [nmul reals rop]. rewrite rlt. destruct (Rlt_dec _ _); [reflexivity|lra].
  - intros Hm. unfold logNormal. rewrite rdec by lia. change (IZR 1 / IZR (10 ^ 6)) with (1 / 1000000). cbn [nmul reals rop]. rewrite rlt, rle. destruct (Rlt_dec _ _); [lra|]. destruct (Rle_dec U 0); [lra|].
    assert (E : rlog (RFin 0) = RUndef) by (unfold rlog; destruct (Rlt_dec 0 0); [lra|reflexivity]). rewrite E. reflexivity.
Qed.
Print Assumptions C81_density_refuted.

(** solve2 solves a system of two equations when its determinant is not small, and says so otherwise. *)
Theorem C81_solve2 : forall a b c d u v,
  if Rlt_dec (Rabs (a * d - b * c)) (1 / 1000000) then
    solve2 reals (@Mat reals (RFin a) (RFin b) (RFin c) (RFin d)) (V u v) = (false, RFin (a * d - b * c), V 0 0)
  else exists x y,
    solve2 reals (@Mat reals (RFin a) (RFin b) (RFin c) (RFin d)) (V u v) = (true, RFin (a * d - b * c), V x y) /\
    forall x' y', (a * x' + b * y' = u /\ c * x' + d * y' = v) <-> (x' = x /\ y' = y).
Proof.
  intros. pose proof (solve2_eq a b c d u v) as E. destruct (Rlt_dec _ _) as [L|L]; [exact E|]. eexists. eexists. split; [exact E|].
  assert (N : a * d - b * c <> 0) by (intros X; apply L; rewrite X, Rabs_R0; lra).
  intros x' y'. split.
  - intros (<- & <-). split; field; exact N.
  - intros (-> & ->). split; field; exact N.
Qed.
Print Assumptions C81_solve2.
Example C81_solve2_ex : exists x y, solve2 reals (@Mat reals (RFin 2) (RFin 1) (RFin 1) (RFin 3)) (V 5 10) = (true, RFin (2 * 3 - 1 * 1), V x y) /\ x = 1 /\ y = 3.
Proof.
  pose proof (C81_solve2 2 1 1 3 5 10) as H. destruct (Rlt_dec _ _) as [L|_]; [exfalso; rewrite Rabs_pos_eq in L by lra; lra|].
  destruct H as (x & y & E & U). exists x, y. split; [exact E|]. destruct (proj1 (U 1 3) ltac:(lra)) as (-> & ->). auto.
Qed.

(** findZero calls the function at most n_trial times; success means that it got, by Newton steps, to a
    point where the functions are small, or that the last step was small. *)
Theorem C81_findZero : forall func F J tolx tolf n x y ok z calls,
  (forall x y, func (V x y) = (V (fst (F x y)) (snd (F x y)),
     @Mat reals (RFin (fst (fst (J x y)))) (RFin (snd (fst (J x y)))) (RFin (fst (snd (J x y)))) (RFin (snd (snd (J x y)))))) ->
  findZero reals n func (V x y) (RFin tolx) (RFin tolf) = (ok, z, calls) ->
  (calls <= n)%nat /\
  (ok = true -> exists x' y', z = V x' y' /\ search F J tolx tolf n x y x' y' /\
     (Rabs (fst (F x' y')) + Rabs (snd (F x' y')) <= tolf \/
      exists u v, Rabs u + Rabs v <= tolx /\
        fst (fst (J (x' - u) (y' - v))) * u + snd (fst (J (x' - u) (y' - v))) * v = - fst (F (x' - u) (y' - v)) /\
        fst (snd (J (x' - u) (y' - v))) * u + snd (snd (J (x' - u) (y' - v))) * v = - snd (F (x' - u) (y' - v)))).
Proof.
  intros func F J tolx tolf n x y ok z calls Hf E. split; [exact (findZero_calls _ _ _ _ _ _ _ _ _ E)|]. intros ->.
  destruct (findZero_search func F J tolx tolf Hf _ _ _ _ _ E) as (x' & y' & -> & S). exists x', y'. split; [reflexivity|]. split; [exact S|].
  clear E. induction S as [k x y T|k x y u v T A B C|k x y u v x' y' T A B C S IH].
  - left. exact T.
  - right. exists u, v. replace (x + u - u) with x by ring. replace (y + v - v) with y by ring. auto.
  - exact IH.
Qed.
Print Assumptions C81_findZero.
(** x - 1 and y - 2 are 0 at (1, 2): one step from (0, 0). *)
Definition shift (x y : R) : R * R := (x - 1, y - 2).
Definition unit_jacobian (x y : R) : R * R * (R * R) := (1, 0, (0, 1)).
Definition shift_code (z : vec reals) : vec reals * mat reals :=
  (@Vec reals (@nsub reals (v0 z) (RFin 1)) (@nsub reals (v1 z) (RFin 2)), @Mat reals (RFin 1) (RFin 0) (RFin 0) (RFin 1)).
Example C81_findZero_ex : exists calls, findZero reals 5 shift_code (V 0 0) (RFin (1 / 10)) (RFin (1 / 100)) = (true, V (0 + (- (0 - 1) * 1 - - (0 - 2) * 0) / (1 * 1 - 0 * 0)) (0 + (- (0 - 2) * 1 - - (0 - 1) * 0) / (1 * 1 - 0 * 0)), calls).
Proof.
  exists 2%nat. assert (Sc : forall x y, shift_code (V x y) = (V (x - 1) (y - 2), @Mat reals (RFin 1) (RFin 0) (RFin 0) (RFin 1))) by reflexivity.
  assert (Ng : forall x, @nopp reals (RFin x) = RFin (- x)) by reflexivity. assert (Ad : forall x y, @nadd reals (RFin x) (RFin y) = RFin (x + y)) by reflexivity.
  cbn [findZero]. rewrite Sc. cbn [v0 v1]. rewrite err_eq, rle. destruct (Rle_dec _ _) as [L|_]; [exfalso; rewrite !Rabs_left in L by lra; lra|].
  rewrite !Ng, solve2_eq. destruct (Rlt_dec _ _) as [L|_]; [exfalso; rewrite Rabs_pos_eq in L by lra; lra|]. cbn [negb v0 v1]. rewrite err_eq, rle.
  destruct (Rle_dec _ (1 / 10)) as [L|_]; [exfalso; rewrite !Rabs_pos_eq in L by lra; lra|]. rewrite !Ad, Sc. cbn [v0 v1].
  rewrite err_eq, rle. destruct (Rle_dec _ _) as [_|N]; [reflexivity|]. exfalso. apply N. replace (_ - 1) with 0 by lra. replace (_ - 2) with 0 by lra. rewrite Rabs_R0. lra.
Qed.
Example C81_findZero_ex2 x y : shift_code (V x y) = (V (fst (shift x y)) (snd (shift x y)),
   @Mat reals (RFin (fst (fst (unit_jacobian x y)))) (RFin (snd (fst (unit_jacobian x y)))) (RFin (fst (snd (unit_jacobian x y)))) (RFin (snd (snd (unit_jacobian x y))))).
Proof. reflexivity. Qed.
(** Success does not mean that a zero is near: the functions may be 1 everywhere. *)
Theorem C81_findZero_refuted : exists func,
  (forall x y, fst (func (V x y)) = V 1 1) /\
  exists z calls, findZero reals 500 func (V 0 0) (RFin (1 / 1000000)) (RFin (1 / 1000)) = (true, z, calls).
Proof.
  exists (fun _ => (V 1 1, @Mat reals (RFin 10000000) (RFin 0) (RFin 0) (RFin 10000000))). split; [reflexivity|].
  assert (X : forall n, findZero reals (S n) (fun _ => (V 1 1, @Mat reals (RFin 10000000) (RFin 0) (RFin 0) (RFin 10000000))) (V 0 0) (RFin (1 / 1000000)) (RFin (1 / 1000)) =
    (true, V (0 + (- 1 * 10000000 - - 1 * 0) / (10000000 * 10000000 - 0 * 0)) (0 + (- 1 * 10000000 - - 1 * 0) / (10000000 * 10000000 - 0 * 0)), 1%nat)).
  { intros n. cbn [findZero v0 v1]. rewrite err_eq, rle. destruct (Rle_dec _ _) as [L|_]; [exfalso; rewrite Rabs_pos_eq in L by lra; lra|]. change (@nopp reals (RFin 1)) with (RFin (- 1)). rewrite solve2_eq.
    destruct (Rlt_dec _ _) as [L|_]; [exfalso; rewrite Rabs_pos_eq in L by lra; lra|]. cbn [negb v0 v1]. rewrite err_eq, rle. destruct (Rle_dec _ _) as [_|N]; [reflexivity|].
    exfalso. apply N. rewrite !Rabs_left by lra. lra. }
  rewrite (X 499%nat). eauto.
Qed.
Print Assumptions C81_findZero_refuted.

(** The functions whose zero is searched are the deviations of the mean and the variance, and their
    jacobian is made of difference quotients. *)
Theorem C81_target : forall (mean_of var_of : R -> R -> R) mean sigma U m s, 0 < U -> 0 < s ->
  (forall m s, 0 < s -> moment 1 m s U (mean_of m s)) ->
  (forall m s, 0 < s -> moment 2 m s U (var_of m s + mean_of m s ^ 2)) ->
  let h := Rmax 1 (Rabs m) / 1000 in
  let k := Rmax 1 (Rabs s) / 1000 in
  targetFunc reals rsqrt rlog rexp real_erf (RFin mean) (RFin sigma) (RFin U) (V m s) =
    (V (mean_of m s - mean) (var_of m s - sigma ^ 2),
     @Mat reals (RFin ((mean_of (m + h) s - mean_of m s) / h)) (RFin ((mean_of m (s + k) - mean_of m s) / k))
                (RFin ((var_of (m + h) s - var_of m s) / h)) (RFin ((var_of m (s + k) - var_of m s) / k))).
Proof.
  intros mean_of var_of mean sigma U m s HU Hs H1 H2 h k. rewrite target_eq by assumption. cbv zeta.
  assert (W : forall x, width x = Rmax 1 (Rabs x) / 1000).
  { intros x. unfold width. destruct (Rlt_dec _ _); [rewrite Rmax_left by lra|rewrite Rmax_right by lra]; field. }
  rewrite !W. fold h k. assert (Hk : 0 < k) by (unfold k; rewrite <- W; apply width_pos).
  assert (E0 : forall m s, 0 < s -> dev0 mean sigma (ln U) m s = mean_of m s - mean).
  { intros m' s' L. unfold dev0. rewrite formula_below by assumption. pose proof (H1 m' s' L) as Q. apply moment_mass in Q; [|assumption..]. lra. }
  assert (E1 : forall m s, 0 < s -> dev1 mean sigma (ln U) m s = var_of m s - sigma ^ 2).
  { intros m' s' L. unfold dev1. rewrite !formula_below by assumption. pose proof (H1 m' s' L) as Q. pose proof (H2 m' s' L) as Q2. apply moment_mass in Q, Q2; try assumption. rewrite <- Q, <- Q2. ring. }
  rewrite !E0, !E1 by lra. f_equal. f_equal; f_equal; f_equal; ring.
Qed.
Print Assumptions C81_target.
Example C81_target_ex : exists mean_of var_of : R -> R -> R,
  (forall m s, 0 < s -> moment 1 m s 2 (mean_of m s)) /\ (forall m s, 0 < s -> moment 2 m s 2 (var_of m s + mean_of m s ^ 2)).
Proof.
  exists (fun m s => mass m s 1 2 / mass m s 0 2), (fun m s => mass m s 2 2 / mass m s 0 2 - (mass m s 1 2 / mass m s 0 2) ^ 2). split; intros m s Hs; apply moment_mass; lra.
Qed.
(** The search starts at the log-normal distribution that would have the desired mean and variance if it
    were not cut off, makes at most 500 steps, and its result is the result of the fit. *)
Theorem C81_start : forall mean sigma U, 0 < mean -> 0 < sigma -> 0 < U ->
  exists m s, 0 < s /\ exp (m + s ^ 2 / 2) = mean /\ exp (2 * m + 2 * s ^ 2) - mean ^ 2 = sigma ^ 2 /\
    rsolve (RFin mean) (RFin sigma) (RFin U) =
      match findZero reals 500 (targetFunc reals rsqrt rlog rexp real_erf (RFin mean) (RFin sigma) (RFin U)) (V m s) (RFin (1 / 1000000)) (RFin (1 / 1000)) with
      | (true, z, _) => Some (v0 z, v1 z, RFin (ln U))
      | (false, _, _) => None
      end.
Proof.
  intros mean sigma U A B C. destruct (solve_eq mean sigma U A B C) as (s & S1 & S2 & E). exists (ln mean - s * s / 2), s. split; [exact S1|].
  assert (X : exp (s ^ 2) = sigma ^ 2 / mean ^ 2 + 1).
  { replace (s ^ 2) with (s * s) by ring. rewrite S2. apply exp_ln. assert (0 < sigma ^ 2 / mean ^ 2) by (apply Rdiv_lt_0_compat; apply pow_lt; assumption). lra. }
  split; [|split].
  - replace (ln mean - s * s / 2 + s ^ 2 / 2) with (ln mean) by field. now apply exp_ln.
  - replace (2 * (ln mean - s * s / 2) + 2 * s ^ 2) with (ln mean + ln mean + s ^ 2) by field. rewrite !exp_plus, X, exp_ln by exact A. field. lra.
  - rewrite E. destruct (findZero _ _ _ _ _ _) as ((ok, z), calls). destruct ok; reflexivity.
Qed.
Print Assumptions C81_start.
Example C81_start_ex : exists m s, 0 < s /\ exp (m + s ^ 2 / 2) = 3 /\ exp (2 * m + 2 * s ^ 2) - 3 ^ 2 = 1 ^ 2.
Proof. destruct (C81_start 3 1 10) as (m & s & A & B & C & _); [lra..|]. eauto. Qed.

(** The fit: the mean and the variance of the distribution found deviate from the desired ones by at most
    0.001 in all, or the last Newton step was at most 0.000001. A negative log_sigma stands for the part
    of the distribution above the limit, and the desired mean is then not below the limit. *)
Theorem C81_fit_partial : forall mean sigma U lm ls lb, 0 < mean -> 0 < sigma -> 0 < U ->
  rsolve (RFin mean) (RFin sigma) (RFin U) = Some (lm, ls, lb) ->
  exists m s, lm = RFin m /\ ls = RFin s /\ lb = RFin (ln U) /\
    ((s <> 0 /\ close (1 / 1000) mean sigma U m s /\ (0 < s -> mean <= U + 1 / 1000) /\ (s < 0 -> U - 1 / 1000 <= mean)) \/
     exists m0 s0, s0 <> 0 /\ ~ close (1 / 1000) mean sigma U m0 s0 /\ Rabs (m - m0) + Rabs (s - s0) <= 1 / 1000000).
Proof.
  intros mean sigma U lm ls lb A B C E. destruct (fit _ _ _ _ _ _ A B C E) as (m & s & Em & Es & El & [(N & K)|H]); exists m, s; repeat (split; [assumption|]); [left|right; exact H].
  destruct (side _ _ _ _ _ C K). auto.
Qed.
Print Assumptions C81_fit_partial.
(** Small desired values are accepted at once, whatever they are: the mean of the distribution found can
    be at most half of the desired one. *)
Theorem C81_fit_refuted : exists mean sigma U, 0 < mean /\ 0 < sigma /\ 0 < U /\
  exists m s, rsolve (RFin mean) (RFin sigma) (RFin U) = Some (RFin m, RFin s, RFin (ln U)) /\ 0 < s /\
    forall M, moment 1 m s U M -> M <= mean / 2.
Proof.
  exists (1 / 5000), (1 / 5000), (1 / 10000). repeat (split; [lra|]). destruct (small_accepted (1 / 5000) (1 / 5000) (1 / 10000)) as (s & S1 & _ & E); [lra..|].
  eexists. exists s. split; [exact E|]. split; [exact S1|]. intros M H. apply mean_below in H; lra.
Qed.
Print Assumptions C81_fit_refuted.
Example C81_fit_ex : exists m s, rsolve (RFin (1 / 10000)) (RFin (1 / 10000)) (RFin (1 / 5000)) = Some (RFin m, RFin s, RFin (ln (1 / 5000))) /\ 0 < s /\ m < ln (1 / 10000).
Proof. destruct (small_accepted (1 / 10000) (1 / 10000) (1 / 5000)) as (s & S1 & _ & E); [lra..|]. eexists. exists s. split; [exact E|]. split; [exact S1|]. nra. Qed.

(** normal_random_limit gives the first of the numbers of the polar method that does not exceed the
    limit. *)
Theorem C81_normal : forall lim (draws : list (R * R)),
  normal_random_limit reals rsqrt rlog (RFin lim) (map (fun d => (RFin (fst d), RFin (snd d))) draws) =
    match find (fun v => if Rle_dec v lim then true else false) (flat_map polar draws) with
    | Some v => Ok (RFin v)
    | None => Fuel
    end.
Proof. exact normal_eq. Qed.
Print Assumptions C81_normal.
Example C81_normal_ex : exists v, polar (1 / 2, 3 / 4) = [0 * v; 1 / 2 * v].
Proof.
  exists (sqrt (-2 * ln (1 / 4) / (1 / 4))). unfold polar. cbn [fst snd]. replace (2 * (1 / 2) - 1) with 0 by field. replace (2 * (3 / 4) - 1) with (1 / 2) by field. replace (0 ^ 2 + (1 / 2) ^ 2) with (1 / 4) by field.
  destruct (Rlt_dec 0 (1 / 4)); [|lra]. destruct (Rle_dec (1 / 4) 1); [reflexivity|lra].
Qed.

(** What the program prints. *)
Theorem C81_number_partial : forall pre (a b c d : argument reals) draws mean sigma U seed l n,
  flag pre a -> as_double a = Some (RFin mean) -> as_double b = Some (RFin sigma) -> as_double c = Some (RFin U) -> as_long d = Some seed ->
  draws seed = map (fun d => (RFin (fst d), RFin (snd d))) l ->
  rmain (pre ++ [a; b; c; d]) draws = Ok (Number n) ->
  0 < mean /\ 0 < sigma /\ 0 < U /\
  exists m s z, s <> 0 /\ rsolve (RFin mean) (RFin sigma) (RFin U) = Some (RFin m, RFin s, RFin (ln U)) /\
    find (fun v => if Rle_dec v ((ln U - m) / s) then true else false) (flat_map polar l) = Some z /\
    n = RFin (exp (s * z + m)) /\
    (0 < s -> 0 < exp (s * z + m) <= U) /\ (s < 0 -> U <= exp (s * z + m)) /\
    (close (1 / 1000) mean sigma U m s -> U + 1 / 1000 < mean -> U <= exp (s * z + m)).
Proof.
  intros pre a b c d draws mean sigma U seed l n F A B C D Dr E. rewrite (main_four pre a b c d draws mean sigma U F A B C), D, Dr in E.
  destruct (Rle_dec mean 0); [discriminate E|]. destruct (Rle_dec sigma 0); [discriminate E|]. destruct (Rle_dec U 0); [discriminate E|].
  assert (P1 : 0 < mean) by lra. assert (P2 : 0 < sigma) by lra. assert (P3 : 0 < U) by lra. split; [exact P1|]. split; [exact P2|]. split; [exact P3|].
  destruct (rsolve _ _ _) as [((lm, ls), lb)|] eqn:S; [|discriminate E]. destruct (fit _ _ _ _ _ _ P1 P2 P3 S) as (m & s & -> & -> & -> & _).
  destruct (Req_EM_T s 0) as [->|Hs].
  { exfalso. cbn [nsub reals rop ndiv] in E. destruct (Req_EM_T 0 0); [|congruence]. revert E. generalize (map (fun d => (RFin (fst d), RFin (snd d))) l). intros L. clear.
    assert (X : forall draws, normal_random_limit reals rsqrt rlog RUndef draws = Fuel).
    { induction draws as [|(d1, d2) draws IH]; [reflexivity|]. cbn [normal_random_limit]. assert (Y : forall x : reals, @nle reals x RUndef = false) by (intros [x|]; reflexivity). rewrite !Y. destruct (_ || _); exact IH. }
    rewrite X. discriminate. }
  cbn [nsub reals rop] in E. rewrite rdiv in E by exact Hs. rewrite C81_normal in E. destruct (find _ _) as [z|] eqn:Fz; cbn [bind] in E; [|discriminate E]. injection E as <-.
  exists m, s, z. split; [exact Hs|]. split; [reflexivity|]. split; [exact Fz|]. split; [reflexivity|].
  apply find_some in Fz. destruct Fz as (_ & Hz). destruct (Rle_dec z ((ln U - m) / s)) as [Z|]; [|discriminate Hz].
  assert (Lo : 0 < s -> 0 < exp (s * z + m) <= U).
  { intros L. split; [apply exp_pos|]. assert (X : s * z + m <= ln U). { apply (Rmult_le_compat_l s) in Z; [|lra]. replace (s * ((ln U - m) / s)) with (ln U - m) in Z by (field; exact Hs). lra. }
    destruct (Rle_lt_or_eq_dec _ _ X) as [Q|Q]; [apply exp_increasing in Q; rewrite exp_ln in Q by exact P3; lra|]. rewrite Q, exp_ln by exact P3. lra. }
  assert (Hi : s < 0 -> U <= exp (s * z + m)).
  { intros L. assert (X : ln U <= s * z + m). { apply (Rmult_le_compat_l (- s)) in Z; [|lra]. replace (- s * ((ln U - m) / s)) with (- (ln U - m)) in Z by (field; exact Hs). lra. }
    destruct (Rle_lt_or_eq_dec _ _ X) as [Q|Q]; [apply exp_increasing in Q; rewrite exp_ln in Q by exact P3; lra|]. rewrite <- Q, exp_ln by exact P3. lra. }
  split; [exact Lo|]. split; [exact Hi|]. intros K M. apply Hi. destruct (side _ _ _ _ _ P3 K) as (Q & _). destruct (Rtotal_order s 0) as [L|[L|L]]; [exact L|contradiction|]. specialize (Q L). lra.
Qed.
Print Assumptions C81_number_partial.
Example C81_number_ex : exists v, v <= 1 / 5000 /\
  rmain [@Arg reals false (Some (RFin (1 / 10000))) None; @Arg reals false (Some (RFin (1 / 10000))) None; @Arg reals false (Some (RFin (1 / 5000))) None; @Arg reals false None (Some 7%Z)]
    (fun _ => map (fun d => (RFin (fst d), RFin (snd d))) [(1 / 2, 3 / 4)]) = Ok (@Number reals (RFin v)).
Proof.
  destruct (small_accepted (1 / 10000) (1 / 10000) (1 / 5000)) as (s & S1 & S2 & E); [lra..|]. destruct C81_normal_ex as (w & W).
  exists (exp (s * (0 * w) + (ln (1 / 10000) - s * s / 2))).
  assert (L : 0 <= (ln (1 / 5000) - (ln (1 / 10000) - s * s / 2)) / s).
  { apply Rmult_le_pos; [|apply Rlt_le, Rinv_0_lt_compat, S1]. pose proof (ln_increasing (1 / 10000) (1 / 5000) ltac:(lra) ltac:(lra)). nra. }
  split.
  - rewrite Rmult_0_l, Rmult_0_r, Rplus_0_l. left. rewrite <- (exp_ln (1 / 5000)) by lra. apply exp_increasing. pose proof (ln_increasing (1 / 10000) (1 / 5000) ltac:(lra) ltac:(lra)). nra.
  - change ([@Arg reals false (Some (RFin (1 / 10000))) None; @Arg reals false (Some (RFin (1 / 10000))) None; @Arg reals false (Some (RFin (1 / 5000))) None; @Arg reals false None (Some 7%Z)])
      with ([] ++ [@Arg reals false (Some (RFin (1 / 10000))) None; @Arg reals false (Some (RFin (1 / 10000))) None; @Arg reals false (Some (RFin (1 / 5000))) None; @Arg reals false None (Some 7%Z)]).
    rewrite (main_four _ _ _ _ _ _ (1 / 10000) (1 / 10000) (1 / 5000)); [|left; split; reflexivity|reflexivity..].
    destruct (Rle_dec _ 0); [lra|]. destruct (Rle_dec (1 / 5000) 0); [lra|]. cbn [as_long]. rewrite E. cbn [nsub reals rop]. rewrite rdiv by lra. rewrite C81_normal. cbn [flat_map]. rewrite W. cbn [app find].
    destruct (Rle_dec (0 * w) _) as [_|N]; [reflexivity|]. exfalso. apply N. lra.
Qed.

(** Wrong arguments: the usage message; but a call without arguments reads through a null pointer. *)
Theorem C81_usage_partial : forall pre (a b c d : argument reals) args draws,
  (flag pre a ->
     (as_double a = None \/ as_double b = None \/ as_double c = None \/ as_long d = None \/
      (exists x, (as_double a = Some (RFin x) \/ as_double b = Some (RFin x) \/ as_double c = Some (RFin x)) /\ x <= 0)) ->
     rmain (pre ++ [a; b; c; d]) draws = Ok Usage) /\
  (args <> [] -> (length args <> 3)%nat -> (length args <> 4)%nat -> (length args <> 5)%nat -> rmain args draws = Ok Usage) /\
  (args <> [] -> rmain args draws <> UB /\ rmain args draws <> Abort).
Proof.
  intros pre a b c d args draws. split; [|split].
  - intros F H. assert (G : rmain (pre ++ [a; b; c; d]) draws = rmain ([@Arg reals true None None] ++ [a; b; c; d]) draws).
    { destruct F as [(-> & F)|(v & -> & F)]; cbn [app]; unfold main; rewrite F; reflexivity. }
    rewrite G. cbn [app]. unfold main. cbn [is_v of_int reals].
    assert (Lz : forall x, x <= 0 -> @nle reals (RFin x) (RFin 0) = true) by (intros x Hx; rewrite rle; destruct (Rle_dec x 0); [reflexivity|contradiction]).
    destruct (as_double a) as [x|] eqn:Ea; [|reflexivity]. destruct (nle x (RFin 0)) eqn:La; [reflexivity|].
    destruct (as_double b) as [y|] eqn:Eb; [|reflexivity]. destruct (nle y (RFin 0)) eqn:Lb; [reflexivity|].
    destruct (as_double c) as [w|] eqn:Ec; [|reflexivity]. destruct (nle w (RFin 0)) eqn:Lc; [reflexivity|].
    destruct (as_long d); [|reflexivity]. exfalso. destruct H as [H|[H|[H|[H|(q & [H|[H|H]] & Q)]]]]; try discriminate H; injection H as ->; rewrite Lz in * by exact Q; discriminate.
  - intros N A B C. destruct args as [|x1 [|x2 [|x3 [|x4 [|x5 [|x6 r]]]]]]; cbn [length] in *; try lia; [congruence| | |]; unfold main; destruct (is_v x1); reflexivity.
  - intros N. destruct args as [|x1 rest]; [congruence|]. unfold main. cbv zeta.
    assert (NR : forall lim l, normal_random_limit reals rsqrt rlog lim l <> UB /\ normal_random_limit reals rsqrt rlog lim l <> Abort).
    { intros lim. induction l as [|(d1, d2) l IH]; [split; discriminate|]. cbn [normal_random_limit]. destruct (_ || _); [|exact IH]. destruct (nle _ _); [split; discriminate|]. destruct (nle _ _); [split; discriminate|exact IH]. }
    assert (Fin : forall x y w (sd : option Z), match rsolve x y w with
       | Some (m, s, lb) => match sd with Some seed => let! nr := normal_random_limit reals rsqrt rlog (@ndiv reals (@nsub reals lb m) s) (draws seed) in Ok (Number (rexp (@nadd reals (@nmul reals s nr) m))) | None => Ok Fitted end
       | None => Ok NoSolution end <> UB /\
       match rsolve x y w with
       | Some (m, s, lb) => match sd with Some seed => let! nr := normal_random_limit reals rsqrt rlog (@ndiv reals (@nsub reals lb m) s) (draws seed) in Ok (Number (rexp (@nadd reals (@nmul reals s nr) m))) | None => Ok Fitted end
       | None => Ok NoSolution end <> Abort).
    { intros x y w sd. destruct (rsolve x y w) as [((m, s), lb)|]; [|split; discriminate]. destruct sd as [seed|]; [|split; discriminate].
      destruct (NR (@ndiv reals (@nsub reals lb m) s) (draws seed)) as (A & B). destruct (normal_random_limit _ _ _ _ _); cbn [bind]; split; congruence. }
    destruct (if is_v x1 then rest else x1 :: rest) as [|a1 [|a2 [|a3 [|a4 [|a5 r]]]]]; try (split; discriminate).
    + destruct (as_double a1) as [x|]; [|split; discriminate]. destruct (nle x _); [split; discriminate|]. destruct (as_double a2) as [y|]; [|split; discriminate]. destruct (nle y _); [split; discriminate|].
      destruct (as_double a3) as [w|]; [|split; discriminate]. destruct (nle w _); [split; discriminate|]. exact (Fin x y w None).
    + destruct (as_double a1) as [x|]; [|split; discriminate]. destruct (nle x _); [split; discriminate|]. destruct (as_double a2) as [y|]; [|split; discriminate]. destruct (nle y _); [split; discriminate|].
      destruct (as_double a3) as [w|]; [|split; discriminate]. destruct (nle w _); [split; discriminate|]. destruct (as_long a4) as [seed|]; [|split; discriminate]. exact (Fin x y w (Some seed)).
Qed.
Print Assumptions C81_usage_partial.
Example C81_usage_ex : flag [] (@Arg reals false (Some (RFin (-1))) None). Proof. left. split; reflexivity. Qed.
Theorem C81_usage_refuted : forall draws, rmain [] draws = UB.
Proof. reflexivity. Qed.
Print Assumptions C81_usage_refuted.
