(** Proofs about drawRandomLogNormal in exact arithmetic. *)
From Coq Require Import List ZArith Bool Reals Lra Lia Psatz.
From Coquelicot Require Import Coquelicot.
From Verif Require Import Common Arith RealArith Double_Model MathFns_Model MathFns_RealSpec MathFns_Gauss LogNormal_Model LogNormal_Spec LogNormal_Gauss.
Import ListNotations.
Local Open Scope R_scope.

Local Notation rmoment := (momentLogNormal reals rsqrt rexp real_erf).

(** Arithmetic of [reals]. *)
Lemma rdiv a b : b <> 0 -> @ndiv reals (RFin a) (RFin b) = RFin (a / b).
Proof. intros H. cbn. destruct (Req_EM_T b 0); [contradiction|reflexivity]. Qed.
Lemma rdec n k : (0 <= k)%Z -> dec reals n k = RFin (IZR n / IZR (10 ^ k)).
Proof. intros H. unfold dec. apply rdiv. apply IZR_neq. pose proof (Z.pow_pos_nonneg 10 k ltac:(lia) H). lia. Qed.
Lemma rabs a : dabs reals (RFin a) = RFin (Rabs a).
Proof. unfold dabs. cbn. destruct (Rlt_dec a 0); [rewrite Rabs_left by assumption|rewrite Rabs_pos_eq by lra]; reflexivity. Qed.
Lemma rle a b : @nle reals (RFin a) (RFin b) = if Rle_dec a b then true else false. Proof. reflexivity. Qed.
Lemma rlt a b : @nlt reals (RFin a) (RFin b) = if Rlt_dec a b then true else false. Proof. reflexivity. Qed.
Lemma rs2 : s2 reals rsqrt = RFin (sqrt 2).
Proof. unfold s2, rsqrt. cbn. destruct (Rle_dec 0 2); [reflexivity|lra]. Qed.
Lemma rlogp a : 0 < a -> rlog (RFin a) = RFin (ln a).
Proof. intros H. unfold rlog. destruct (Rlt_dec 0 a); [reflexivity|contradiction]. Qed.

(** momentLogNormal as a formula. *)
Definition erf_arg (m s b : R) (r : nat) : R := (b - m - INR r * s * s) / (s * sqrt 2).
Definition moment_formula (m s b : R) (r : nat) : R :=
  exp (INR r * m + INR r * INR r * s * s / 2) * (1 + Rerf (erf_arg m s b r)) / (1 + Rerf (erf_arg m s b 0)).
Lemma rmoment_eq m s b r : s <> 0 -> rmoment (RFin m) (RFin s) (RFin b) (Z.of_nat r) = RFin (moment_formula m s b r).
Proof.
  intros Hs. pose proof sqrt2_pos as S2. unfold momentLogNormal. rewrite rs2. cbn [of_int nadd nsub nmul reals rop]. rewrite mult_IZR, <- INR_IZR_INZ.
  rewrite (rdiv _ 2) by lra. rewrite !(rdiv _ (sqrt 2)) by lra. rewrite !(rdiv _ s) by exact Hs. cbn [rop rexp real_erf].
  replace ((b - m) / sqrt 2 / s) with (erf_arg m s b 0) by (unfold erf_arg; cbn; field; split; [lra|exact Hs]).
  replace ((b - m - INR r * s * s) / sqrt 2 / s) with (erf_arg m s b r) by (unfold erf_arg; field; split; [lra|exact Hs]).
  pose proof (Rerf_gt (erf_arg m s b 0)). rewrite rdiv by lra. reflexivity.
Qed.
Lemma exp_zero m s : exp (INR 0 * m + INR 0 * INR 0 * s * s / 2) = 1.
Proof. replace (INR 0 * m + INR 0 * INR 0 * s * s / 2) with 0 by (cbn; field). apply exp_0. Qed.
Lemma formula_below m s U r : 0 < s -> 0 < U -> moment_formula m s (ln U) r = mass m s r U / mass m s 0 U.
Proof.
  intros Hs HU. unfold moment_formula, mass. fold (erf_arg m s (ln U) r). fold (erf_arg m s (ln U) 0). pose proof (Rerf_gt (erf_arg m s (ln U) 0)).
  rewrite exp_zero. field. lra.
Qed.
Lemma formula_above m s U r : s < 0 -> 0 < U -> moment_formula m s (ln U) r = rest_mass m (- s) r U / rest_mass m (- s) 0 U.
Proof.
  intros Hs HU. unfold moment_formula, rest_mass. pose proof sqrt2_pos.
  assert (E : forall r, (ln U - m - INR r * - s * - s) / (- s * sqrt 2) = - erf_arg m s (ln U) r) by (intros q; unfold erf_arg; field; split; lra).
  rewrite !E, !Rerf_odd. pose proof (Rerf_gt (erf_arg m s (ln U) 0)). replace (INR r * INR r * - s * - s) with (INR r * INR r * s * s) by ring.
  rewrite exp_zero. field. lra.
Qed.

(** The deviations. *)
Definition dev0 (mean sigma b m s : R) : R := moment_formula m s b 1 - mean.
Definition dev1 (mean sigma b m s : R) : R := moment_formula m s b 2 - moment_formula m s b 1 * moment_formula m s b 1 - sigma * sigma.
Lemma deviations_eq mean sigma b m s : s <> 0 ->
  deviations reals rsqrt rexp real_erf (RFin mean) (RFin sigma) (RFin b) (@Vec reals (RFin m) (RFin s)) = @Vec reals (RFin (dev0 mean sigma b m s)) (RFin (dev1 mean sigma b m s)).
Proof.
  intros Hs. unfold deviations. cbn [v0 v1]. change 1%Z with (Z.of_nat 1). change 2%Z with (Z.of_nat 2). rewrite !rmoment_eq by exact Hs. reflexivity.
Qed.
Lemma close_dev tol mean sigma U m s : 0 < U -> s <> 0 ->
  (close tol mean sigma U m s <-> Rabs (dev0 mean sigma (ln U) m s) + Rabs (dev1 mean sigma (ln U) m s) <= tol).
Proof.
  intros HU Hs. unfold dev0, dev1. destruct (Rtotal_order s 0) as [L|[E|G]]; [|contradiction|].
  - rewrite !formula_above by assumption. split.
    + intros (M1 & M2 & [(C & _)|(_ & A1 & A2)] & B); [lra|]. apply above_mass in A1, A2; try lra. subst. replace (sigma * sigma) with (sigma ^ 2) by ring. rewrite <- Rsqr_pow2 in B. exact B.
    + intros B. exists (rest_mass m (- s) 1 U / rest_mass m (- s) 0 U), (rest_mass m (- s) 2 U / rest_mass m (- s) 0 U). split.
      * right. split; [exact L|]. split; apply above_mass; lra.
      * rewrite <- !Rsqr_pow2. exact B.
  - assert (0 < s) by lra. rewrite !formula_below by assumption. split.
    + intros (M1 & M2 & [(_ & A1 & A2)|(C & _)] & B); [|lra]. apply moment_mass in A1, A2; try lra. subst. rewrite <- !Rsqr_pow2 in B. exact B.
    + intros B. exists (mass m s 1 U / mass m s 0 U), (mass m s 2 U / mass m s 0 U). split.
      * left. split; [assumption|]. split; apply moment_mass; lra.
      * rewrite <- !Rsqr_pow2. exact B.
Qed.

(** solve2 *)
Lemma solve2_eq a b c d u v :
  solve2 reals (@Mat reals (RFin a) (RFin b) (RFin c) (RFin d)) (@Vec reals (RFin u) (RFin v)) =
    if Rlt_dec (Rabs (a * d - b * c)) (1 / 1000000) then (false, RFin (a * d - b * c), @Vec reals (RFin 0) (RFin 0))
    else (true, RFin (a * d - b * c), @Vec reals (RFin ((u * d - v * b) / (a * d - b * c))) (RFin ((v * a - u * c) / (a * d - b * c)))).
Proof.
  unfold solve2. cbn [m00 m01 m10 m11 v0 v1 nsub nmul reals rop]. rewrite rabs, rdec, rlt by lia. change (IZR (10 ^ 6)) with 1000000.
  destruct (Rlt_dec _ _) as [L|L]; [reflexivity|]. assert (a * d - b * c <> 0). { intros E. apply L. rewrite E, Rabs_R0. lra. }
  rewrite !rdiv by assumption. reflexivity.
Qed.
Lemma solve2_undef j f d c : solve2 reals j f = (true, d, c) -> (exists a, d = RFin a /\ a <> 0) \/ d = RUndef /\ c = @Vec reals RUndef RUndef.
Proof.
  unfold solve2. intros E. destruct (nlt _ _) eqn:L; [discriminate E|].
  set (dd := nsub _ _) in *. destruct dd as [a|].
  - destruct (Req_EM_T a 0) as [->|N].
    + exfalso. rewrite rabs, rdec, rlt, Rabs_R0 in L by lia. change (IZR (10 ^ 6)) with 1000000 in L. destruct (Rlt_dec 0 (1 / 1000000)); [discriminate L|lra].
    + left. exists a. split; [congruence|exact N].
  - right. injection E as <- <-. split; [reflexivity|]. cbn. f_equal; match goal with |- (match ?x with _ => _ end) = _ => now destruct x end.
Qed.

(** normal_random_limit *)
Definition below (lim v : R) : bool := if Rle_dec v lim then true else false.
Definition fin2 (d : R * R) : rnum * rnum := (RFin (fst d), RFin (snd d)).
Lemma normal_eq lim draws :
  normal_random_limit reals rsqrt rlog (RFin lim) (map fin2 draws) =
    match find (below lim) (flat_map polar draws) with Some v => Ok (RFin v) | None => Fuel end.
Proof.
  induction draws as [|d draws IH]; [reflexivity|]. destruct d as (d1, d2). cbn [map fin2 fst snd normal_random_limit flat_map].
  cbn [of_int nsub nmul nadd reals rop]. set (a := 2 * d1 - 1). set (b := 2 * d2 - 1). set (q := a * a + b * b).
  unfold polar at 1. cbn [fst snd]. fold a b. replace (a ^ 2 + b ^ 2) with q by (unfold q; ring).
  assert (Q : 0 <= q) by (unfold q; nra). rewrite !rlt, !rle.
  destruct (Rlt_dec 0 q) as [L|L].
  - cbn [orb]. rewrite (rlogp q L). cbn [rop]. rewrite rdiv by lra. unfold rsqrt.
    assert (Lq : q <= 1 <-> 0 <= -2 * ln q / q).
    { assert (P : 0 < / q) by now apply Rinv_0_lt_compat. unfold Rdiv. split; intros G.
      - apply Rmult_le_pos; [|lra]. pose proof (ln_le _ _ L G) as K. rewrite ln_1 in K. lra.
      - destruct (Rle_lt_dec q 1) as [X|X]; [exact X|]. exfalso. pose proof (ln_increasing _ _ Rlt_0_1 X) as K. rewrite ln_1 in K. assert (0 < 2 * ln q * / q) by (apply Rmult_lt_0_compat; lra). lra. }
    destruct (Rle_dec q 1) as [G|G]; destruct (Rle_dec 0 (-2 * ln q / q)) as [G'|G']; try tauto.
    cbn [rop app find]. rewrite !rle. unfold below at 1 2. destruct (Rle_dec (a * _) lim); [reflexivity|]. destruct (Rle_dec (b * _) lim); [reflexivity|exact IH].
  - destruct (Rle_dec q 1); [|lra]. cbn [orb app]. assert (E : rlog (RFin q) = RUndef) by (unfold rlog; destruct (Rlt_dec 0 q); [contradiction|reflexivity]). rewrite E. exact IH.
Qed.

(** findZero *)
Local Notation V a b := (@Vec reals (RFin a) (RFin b)).
Local Notation undef := (@Vec reals RUndef RUndef).
Lemma solve2_fin j u v d c : solve2 reals j (V u v) = (true, d, c) ->
  c = undef \/ exists a b e f x y, j = @Mat reals (RFin a) (RFin b) (RFin e) (RFin f) /\ c = V x y /\ a * x + b * y = u /\ e * x + f * y = v.
Proof.
  destruct j as [[a|] [b|] [e|] [f|]]; try (intros E; left; destruct (solve2_undef _ _ _ _ E) as [(z & Ez & _)|(_ & X)]; [|exact X]; unfold solve2 in E; cbn in E; injection E as E _; congruence).
  rewrite solve2_eq. destruct (Rlt_dec _ _) as [L|L]; [discriminate|]. intros E. injection E as _ <-. right. exists a, b, e, f. eexists. eexists. split; [reflexivity|]. split; [reflexivity|].
  assert (a * f - b * e <> 0). { intros E. apply L. rewrite E, Rabs_R0. lra. }
  split; field; assumption.
Qed.
Lemma solve2_none j d c : solve2 reals j undef = (true, d, c) -> c = undef.
Proof.
  unfold solve2. destruct (nlt _ _); [discriminate|]. intros E. injection E as _ <-. destruct j as [[a|] [b|] [e|] [f|]]; cbn; try reflexivity; f_equal; destruct (Req_EM_T _ _); reflexivity.
Qed.
Lemma err_eq a b : @nadd reals (@nadd reals (@of_int reals 0) (dabs reals (RFin a))) (dabs reals (RFin b)) = RFin (Rabs a + Rabs b).
Proof. rewrite !rabs. cbn. f_equal. ring. Qed.

Lemma findZero_search func F J tolx tolf :
  (forall x y, func (V x y) = (V (fst (F x y)) (snd (F x y)), @Mat reals (RFin (fst (fst (J x y)))) (RFin (snd (fst (J x y)))) (RFin (fst (snd (J x y)))) (RFin (snd (snd (J x y)))))) ->
  forall n x y z calls, findZero reals n func (V x y) (RFin tolx) (RFin tolf) = (true, z, calls) ->
  exists x' y', z = V x' y' /\ search F J tolx tolf n x y x' y'.
Proof.
  intros Hf. induction n as [|n IH]; intros x y z calls; [discriminate|]. cbn [findZero]. rewrite Hf. cbn [v0 v1]. rewrite err_eq, rle. fold (total (F x y)).
  destruct (Rle_dec (total (F x y)) tolf) as [L|L].
  - intros E. injection E as <- _. exists x, y. split; [reflexivity|now constructor].
  - change (@nopp reals (RFin (fst (F x y)))) with (RFin (- fst (F x y))). change (@nopp reals (RFin (snd (F x y)))) with (RFin (- snd (F x y))).
    destruct (solve2 _ _ _) as ((ok, d), c) eqn:S2. destruct ok; cbn [negb]; [|discriminate].
    destruct (solve2_fin _ _ _ _ _ S2) as [->|(a & b & e & f & u & v & Ej & -> & E1 & E2)].
    { exfalso. rewrite solve2_eq in S2. destruct (Rlt_dec _ _); discriminate S2. }
    injection Ej as <- <- <- <-. cbn [v0 v1]. rewrite err_eq, rle. change (@Vec reals (@nadd reals (RFin x) (RFin u)) (@nadd reals (RFin y) (RFin v))) with (V (x + u) (y + v)).
    destruct (Rle_dec (Rabs u + Rabs v) tolx) as [T|T].
    + intros E. injection E as <- _. eexists. eexists. split; [reflexivity|]. apply search_step; auto. lra.
    + destruct (findZero _ _ _ (V (x + u) (y + v)) _ _) as ((ok, z'), calls') eqn:Fz. intros E. injection E as -> <- _. destruct (IH _ _ _ _ Fz) as (x' & y' & -> & Q).
      exists x', y'. split; [reflexivity|]. apply (search_on F J tolx tolf n x y u v x' y'); auto; lra.
Qed.
Lemma findZero_calls A func n x tolx tolf ok z calls : findZero A n func x tolx tolf = (ok, z, calls) -> (calls <= n)%nat.
Proof.
  revert x ok z calls. induction n as [|n IH]; intros x ok z calls E; cbn [findZero] in E; [injection E as <- <- <-; lia|].
  destruct (func x) as (f, j). destruct (nle _ tolf); [injection E as <- <- <-; lia|]. destruct (solve2 _ _ _) as ((w, d), c). destruct (negb w); [injection E as <- <- <-; lia|].
  destruct (nle _ tolx); [injection E as <- <- <-; lia|]. destruct (findZero _ _ _ _ _ _) as ((o, z'), k) eqn:Fz. injection E as <- <- <-. pose proof (IH _ _ _ _ Fz). lia.
Qed.

(** The fit. *)
Local Notation rtarget := (targetFunc reals rsqrt rlog rexp real_erf).
Lemma moment_undef m b p : rmoment RUndef m b p = RUndef. Proof. reflexivity. Qed.
Lemma moment_zero m b p : rmoment m (RFin 0) b p = RUndef.
Proof.
  unfold momentLogNormal. rewrite rs2.
  assert (Z : forall x : reals, @ndiv reals x (RFin 0) = RUndef) by (intros [x|]; cbn; [destruct (Req_EM_T 0 0); [reflexivity|contradiction]|reflexivity]).
  rewrite !Z. cbn [real_erf]. change (@nadd reals (of_int 1) RUndef) with RUndef. match goal with |- ndiv ?x RUndef = _ => destruct x; reflexivity end.
Qed.
Lemma target_none mean sigma U x j f : (x = undef \/ exists m, x = @Vec reals m (RFin 0)) -> rtarget mean sigma U x = (f, j) -> f = undef.
Proof.
  intros H E. unfold targetFunc in E. injection E as <- _. unfold deviations. destruct H as [->|(m & ->)]; cbn [v0 v1].
  - rewrite !moment_undef. reflexivity.
  - rewrite !moment_zero. reflexivity.
Qed.
Lemma stuck mean sigma U tolx tolf n x z calls : (x = undef \/ exists m, x = @Vec reals m (RFin 0)) ->
  findZero reals n (rtarget mean sigma U) x tolx tolf = (true, z, calls) -> False.
Proof.
  revert x z calls. induction n as [|n IH]; intros x z calls H E; [discriminate E|]. cbn [findZero] in E. destruct (rtarget mean sigma U x) as (f, j) eqn:T. apply target_none in T; [|exact H]. subst f. cbn [v0 v1] in E.
  change (@nopp reals RUndef) with RUndef in E. change (@nle reals (@nadd reals (@nadd reals (@of_int reals 0) (dabs reals RUndef)) (dabs reals RUndef)) tolf) with false in E. cbv iota in E.
  destruct (solve2 _ _ _) as ((ok, d), c) eqn:S2. destruct ok; cbn [negb] in E; [|discriminate E]. apply solve2_none in S2. subst c. cbn [v0 v1] in E.
  change (@nle reals (@nadd reals (@nadd reals (@of_int reals 0) (dabs reals RUndef)) (dabs reals RUndef)) tolx) with false in E. cbv iota in E.
  assert (X : forall a : reals, @nadd reals a RUndef = RUndef) by (intros [a|]; reflexivity). rewrite !X in E.
  destruct (findZero _ _ _ _ _ _) as ((ok, z'), k) eqn:Fz. injection E as -> <- _. apply IH in Fz; auto.
Qed.
Lemma fit_search mean sigma U tolx tolf : 0 < U -> forall n m s z calls,
  findZero reals n (rtarget (RFin mean) (RFin sigma) (RFin U)) (V m s) (RFin tolx) (RFin tolf) = (true, z, calls) ->
  exists m' s', z = V m' s' /\
    ((s' <> 0 /\ close tolf mean sigma U m' s') \/
     exists m0 s0, s0 <> 0 /\ ~ close tolf mean sigma U m0 s0 /\ Rabs (m' - m0) + Rabs (s' - s0) <= tolx).
Proof.
  intros HU. induction n as [|n IH]; intros m s z calls E; [discriminate E|].
  destruct (Req_EM_T s 0) as [->|Hs]; [exfalso; apply stuck in E; eauto|].
  cbn [findZero] in E. unfold targetFunc at 1 in E. rewrite (rlogp U HU), deviations_eq in E by exact Hs. cbn [v0 v1] in E. rewrite err_eq, rle in E.
  destruct (Rle_dec _ tolf) as [L|L].
  - injection E as <- _. exists m, s. split; [reflexivity|]. left. split; [exact Hs|]. now apply close_dev.
  - destruct (solve2 _ _ _) as ((ok, d), c) eqn:S2. destruct ok; cbn [negb] in E; [|discriminate E].
    change (@nopp reals (RFin (dev0 mean sigma (ln U) m s))) with (RFin (- dev0 mean sigma (ln U) m s)) in S2. change (@nopp reals (RFin (dev1 mean sigma (ln U) m s))) with (RFin (- dev1 mean sigma (ln U) m s)) in S2.
    destruct (solve2_fin _ _ _ _ _ S2) as [->|(a & b & e & f & u & v & _ & -> & _)]; cbn [v0 v1] in E.
    + change (@nle reals (@nadd reals (@nadd reals (@of_int reals 0) (dabs reals RUndef)) (dabs reals RUndef)) (RFin tolx)) with false in E. cbv iota in E.
      destruct (findZero _ _ _ _ _ _) as ((ok, z'), k) eqn:Fz. injection E as -> <- _. exfalso. apply stuck in Fz; auto.
    + rewrite err_eq, rle in E. change (@Vec reals (@nadd reals (RFin m) (RFin u)) (@nadd reals (RFin s) (RFin v))) with (V (m + u) (s + v)) in E.
      destruct (Rle_dec (Rabs u + Rabs v) tolx) as [T|T].
      * injection E as <- _. exists (m + u), (s + v). split; [reflexivity|]. right. exists m, s. split; [exact Hs|]. split; [rewrite close_dev by assumption; exact L|].
        replace (m + u - m) with u by ring. replace (s + v - s) with v by ring. exact T.
      * destruct (findZero _ _ _ _ _ _) as ((ok, z'), k) eqn:Fz. injection E as -> <- _. exact (IH _ _ _ _ Fz).
Qed.
Local Notation rsolve := (solveLogNormal reals rsqrt rlog rexp real_erf).
Lemma start mean sigma : 0 < mean -> 0 < sigma ->
  exists s, 0 < s /\ s * s = ln (sigma ^ 2 / mean ^ 2 + 1) /\
   rsqrt (rlog (@nadd reals (@ndiv reals (@ndiv reals (@nmul reals (RFin sigma) (RFin sigma)) (RFin mean)) (RFin mean)) (of_int 1))) = RFin s.
Proof.
  intros Hm Hs. cbn [nmul reals rop of_int]. rewrite !rdiv by lra. cbn [nadd reals rop]. replace (sigma * sigma / mean / mean + 1) with (sigma ^ 2 / mean ^ 2 + 1) by (field; lra).
  assert (P : 0 < sigma ^ 2 / mean ^ 2) by (apply Rdiv_lt_0_compat; apply pow_lt; assumption). rewrite rlogp by lra.
  assert (L : 0 < ln (sigma ^ 2 / mean ^ 2 + 1)) by (rewrite <- ln_1; apply ln_increasing; lra).
  exists (sqrt (ln (sigma ^ 2 / mean ^ 2 + 1))). split; [now apply sqrt_lt_R0|]. split; [apply sqrt_sqrt; lra|]. unfold rsqrt. destruct (Rle_dec _ _); [reflexivity|lra].
Qed.
Lemma solve_eq mean sigma U : 0 < mean -> 0 < sigma -> 0 < U -> exists s, 0 < s /\ s * s = ln (sigma ^ 2 / mean ^ 2 + 1) /\
  rsolve (RFin mean) (RFin sigma) (RFin U) =
    let '(finder_success, x, _) := findZero reals 500 (rtarget (RFin mean) (RFin sigma) (RFin U)) (V (ln mean - s * s / 2) s) (RFin (1 / 1000000)) (RFin (1 / 1000)) in
    if finder_success then Some (v0 x, v1 x, RFin (ln U)) else None.
Proof.
  intros A B C. destruct (start mean sigma A B) as (s & S1 & S2 & S3). exists s. split; [exact S1|]. split; [exact S2|].
  unfold solveLogNormal. rewrite S3. rewrite (rlogp mean A), (rlogp U C). cbn [nmul reals rop of_int]. rewrite (rdiv _ 2) by lra. cbn [nsub reals rop]. rewrite !rdec by lia. reflexivity.
Qed.
Lemma fit mean sigma U lm ls lb : 0 < mean -> 0 < sigma -> 0 < U -> rsolve (RFin mean) (RFin sigma) (RFin U) = Some (lm, ls, lb) ->
  exists m s, lm = RFin m /\ ls = RFin s /\ lb = RFin (ln U) /\
    ((s <> 0 /\ close (1 / 1000) mean sigma U m s) \/
     exists m0 s0, s0 <> 0 /\ ~ close (1 / 1000) mean sigma U m0 s0 /\ Rabs (m - m0) + Rabs (s - s0) <= 1 / 1000000).
Proof.
  intros A B C E. destruct (solve_eq mean sigma U A B C) as (s & _ & _ & X). rewrite X in E. destruct (findZero _ _ _ _ _ _) as ((ok, z), k) eqn:Fz. destruct ok; [|discriminate E].
  injection E as <- <- <-. destruct (fit_search _ _ _ _ _ C _ _ _ _ _ Fz) as (m' & s' & -> & Q). exists m', s'. auto.
Qed.
(** Where the mean is. *)
Lemma side mean sigma U m s : 0 < U -> close (1 / 1000) mean sigma U m s ->
  (0 < s -> mean <= U + 1 / 1000) /\ (s < 0 -> U - 1 / 1000 <= mean).
Proof.
  intros HU (M1 & M2 & H & B). pose proof (Rabs_pos (M2 - M1 ^ 2 - sigma ^ 2)) as P. assert (D : Rabs (M1 - mean) <= 1 / 1000) by lra. apply Rabs_le_between in D.
  split; intros L.
  - destruct H as [(_ & A & _)|(C & _)]; [|lra]. pose proof (mean_below m s L U M1 HU A). lra.
  - destruct H as [(C & _)|(_ & A & _)]; [lra|]. pose proof (mean_above m (- s) ltac:(lra) U M1 HU A). lra.
Qed.

(** Small desired values are always accepted. *)
Lemma small_accepted mean sigma U : 0 < mean <= 1 / 4000 -> 0 < sigma <= 1 / 100 -> 0 < U <= 1 / 4000 ->
  exists s, 0 < s /\ s * s = ln (sigma ^ 2 / mean ^ 2 + 1) /\
    rsolve (RFin mean) (RFin sigma) (RFin U) = Some (RFin (ln mean - s * s / 2), RFin s, RFin (ln U)).
Proof.
  intros (A & A') (B & B') (C & C'). destruct (solve_eq mean sigma U A B C) as (s & S1 & S2 & E). exists s. split; [exact S1|]. split; [exact S2|]. rewrite E. clear E.
  set (m := ln mean - s * s / 2). assert (Hs : s <> 0) by lra.
  assert (L : Rabs (dev0 mean sigma (ln U) m s) + Rabs (dev1 mean sigma (ln U) m s) <= 1 / 1000).
  { unfold dev0, dev1. rewrite !formula_below by assumption. set (M1 := mass m s 1 U / mass m s 0 U). set (M2 := mass m s 2 U / mass m s 0 U).
    assert (P1 : 0 < M1 <= U ^ 1) by (apply (moment_below m s S1 1 U M1 C); now apply moment_mass).
    assert (P2 : 0 < M2 <= U ^ 2) by (apply (moment_below m s S1 2 U M2 C); now apply moment_mass).
    cbn [pow] in P1, P2. assert (D0 : Rabs (M1 - mean) <= 1 / 4000) by (apply Rabs_le; lra).
    assert (D1 : Rabs (M2 - M1 * M1 - sigma * sigma) <= 2 / 10000) by (apply Rabs_le; nra). lra. }
  assert (X : forall n, findZero reals (S n) (rtarget (RFin mean) (RFin sigma) (RFin U)) (V m s) (RFin (1 / 1000000)) (RFin (1 / 1000)) = (true, V m s, 1%nat)).
  { intros n. cbn [findZero]. unfold targetFunc at 1. rewrite (rlogp U C), deviations_eq by exact Hs. cbn [v0 v1]. rewrite err_eq, rle. destruct (Rle_dec _ _) as [_|N]; [reflexivity|contradiction]. }
  rewrite (X 499%nat). reflexivity.
Qed.

(** targetFunc. *)
Definition width (x : R) : R := if Rlt_dec (Rabs x) 1 then 1 / 1000 else 1 / 1000 * Rabs x.
Lemma width_pos x : 0 < width x.
Proof. unfold width. destruct (Rlt_dec _ _); lra. Qed.
Lemma stepped_eq x : stepped reals (RFin x) = RFin (x + width x).
Proof.
  unfold stepped, width. rewrite rabs, rdec by lia. change (IZR 1 / IZR (10 ^ 3)) with (1 / 1000). cbn [of_int reals]. rewrite rlt. destruct (Rlt_dec _ _); reflexivity.
Qed.
Lemma target_eq mean sigma U m s : 0 < U -> 0 < s ->
  let D0 := dev0 mean sigma (ln U) in let D1 := dev1 mean sigma (ln U) in
  rtarget (RFin mean) (RFin sigma) (RFin U) (V m s) =
    (V (D0 m s) (D1 m s),
     @Mat reals (RFin ((D0 (m + width m) s - D0 m s) / width m)) (RFin ((D0 m (s + width s) - D0 m s) / width s))
                (RFin ((D1 (m + width m) s - D1 m s) / width m)) (RFin ((D1 m (s + width s) - D1 m s) / width s))).
Proof.
  intros HU Hs D0 D1. pose proof (width_pos m) as W1. pose proof (width_pos s) as W2. unfold targetFunc. cbn [v0 v1]. rewrite !stepped_eq, (rlogp U HU). cbn [v0 v1]. rewrite !deviations_eq by lra. cbn [v0 v1 nsub reals rop].
  fold D0 D1. rewrite !rdiv by lra. replace (m + width m - m) with (width m) by ring. replace (s + width s - s) with (width s) by ring. reflexivity.
Qed.

(** The density. *)
Local Notation rpdf := (logNormal reals rsqrt rlog rexp real_erf (RFin PI)).
Lemma pdf_inside m s U x : 0 < s -> 0 < x < U -> m * (1 / 1000000) <= x -> rpdf (RFin x) (RFin m) (RFin s) (RFin U) = RFin (density m s x / mass m s 0 U).
Proof.
  intros Hs (Hx & Hu) L. pose proof sqrt2_pos as S2. pose proof PI_RGT_0 as Pp. unfold logNormal. rewrite rdec by lia. change (IZR 1 / IZR (10 ^ 6)) with (1 / 1000000). cbn [nmul reals rop]. rewrite rlt, rle.
  destruct (Rlt_dec _ _); [lra|]. destruct (Rle_dec _ _); [lra|]. rewrite rs2, !rlogp by lra. cbn [nsub nopp nmul of_int reals rop].
  rewrite (rdiv _ (sqrt 2)), !(rdiv _ 2), !(rdiv _ s) by lra. cbn [real_erf nadd reals rop rexp]. rewrite (rdiv _ 2) by lra.
  unfold rsqrt. destruct (Rle_dec 0 (2 * PI)); [|lra]. pose proof (sqrt_lt_R0 (2 * PI) ltac:(lra)) as Sp. rewrite !(rdiv _ (sqrt (2 * PI))), !(rdiv _ s), (rdiv _ x) by lra.
  set (e := Rerf ((ln U - m) / sqrt 2 / s)). pose proof (Rerf_gt ((ln U - m) / sqrt 2 / s)) as G. fold e in G. rewrite rdiv by lra. f_equal.
  assert (Em : mass m s 0 U = (1 + e) / 2).
  { unfold mass, e. rewrite exp_zero. replace ((ln U - m - INR 0 * s * s) / (s * sqrt 2)) with ((ln U - m) / sqrt 2 / s) by (cbn; field; lra). field. }
  rewrite Em. unfold density. replace (- (ln x - m) * (ln x - m) / 2 / s / s) with (- (ln x - m) ^ 2 / (2 * s ^ 2)) by (field; lra). field. repeat split; lra.
Qed.

(** The program. *)
Local Notation rmain := (main reals rsqrt rlog rexp real_erf).
Lemma main_four pre (a b c d : argument reals) draws mean sigma U : flag pre a -> as_double a = Some (RFin mean) -> as_double b = Some (RFin sigma) -> as_double c = Some (RFin U) ->
  rmain (pre ++ [a; b; c; d]) draws =
    (if Rle_dec mean 0 then Ok Usage else if Rle_dec sigma 0 then Ok Usage else if Rle_dec U 0 then Ok Usage else
     match as_long d with None => Ok Usage | Some seed =>
       match rsolve (RFin mean) (RFin sigma) (RFin U) with
       | None => Ok NoSolution
       | Some (m, s, l) => let! nr := normal_random_limit reals rsqrt rlog (@ndiv reals (@nsub reals l m) s) (draws seed) in Ok (Number (rexp (@nadd reals (@nmul reals s nr) m)))
       end
     end).
Proof.
  intros F A B C.
  assert (E : (if is_v a then [b; c; d] else [a; b; c; d]) = [a; b; c; d] \/ pre <> []) by (destruct F as [(_ & F)|(v & -> & _)]; [rewrite F; auto|right; discriminate]).
  assert (G : rmain (pre ++ [a; b; c; d]) draws = rmain ([@Arg reals true None None] ++ [a; b; c; d]) draws).
  { destruct F as [(-> & F)|(v & -> & F)]; cbn [app]; unfold main; rewrite F; reflexivity. }
  rewrite G. cbn [app]. unfold main. cbn [is_v]. rewrite A, B, C. cbn [of_int reals]. rewrite !rle. destruct (Rle_dec mean 0); [reflexivity|]. destruct (Rle_dec sigma 0); [reflexivity|]. destruct (Rle_dec U 0); [reflexivity|].
  destruct (as_long d); [|reflexivity]. destruct (rsolve _ _ _) as [((m, s), l)|]; reflexivity.
Qed.
