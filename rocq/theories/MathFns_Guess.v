(** inverseErf in real arithmetic with the real erf: the initial guess and convergence. *)
From Coq Require Import ZArith Bool Reals Lra Lia Psatz QArith Qreals Machin.
From Verif Require Import Common Arith Double_Model RealArith MathFns_Model MathFns_Newton MathFns_RealSpec MathFns_Gauss.
Local Open Scope R_scope.

Lemma pi_upper : PI <= 315 / 100.
Proof.
  pose proof (PI_2_3_7_ineq 1) as (_ & U). change (2 * 1)%nat with 2%nat in U. rewrite <- Q2R_sum in U.
  assert (B : (qsum 2 <= 315 # 400)%Q) by (vm_compute; discriminate). apply Qle_Rle in B. assert (E : Q2R (315 # 400) = 315 / 400) by (unfold Q2R; cbn [Qnum Qden]; lra). rewrite E in B. lra.
Qed.
Lemma sqrt_pi_bounds : 177 / 100 <= sqrt PI <= 178 / 100.
Proof.
  pose proof pi_upper. pose proof pi_bound as L. pose proof sqrt_PI_sq. pose proof sqrt_PI_pos. unfold newton_c in L. change (10 ^ 15)%Z with 1000000000000000%Z in L. split; nra.
Qed.
Lemma c_low : 88622 / 100000 <= newton_c <= 88623 / 100000.
Proof. unfold newton_c. change (10 ^ 15)%Z with 1000000000000000%Z. lra. Qed.
(** Near 0 each step halves the distance to the root, from either side. *)
Section Near.
Variable erf : R -> R.
Hypothesis erf_deriv : forall x, derivable_pt_lim erf x (2 / sqrt PI * exp (- (x * x))).
Variable r : R.
Hypothesis r_small : 0 < r <= 1 / 4.
Lemma exp_bounds u : -31 / 100 <= u <= 31 / 100 -> 69 / 100 <= exp u <= 145 / 100.
Proof.
  intros H. pose proof (exp_ineq1_le u). pose proof (exp_ineq1_le (- u)) as N. split; [lra|]. pose proof (exp_pos u). assert (E : exp u * exp (- u) = 1) by (rewrite <- exp_plus, Rplus_opp_r; apply exp_0). nra.
Qed.
Lemma near_factor x c : -55 / 100 <= x <= 55 / 100 -> -55 / 100 <= c <= 55 / 100 -> 1 / 2 <= 2 / sqrt PI * exp (- (c * c)) * exp (x * x) * newton_c <= 3 / 2.
Proof.
  intros X C. pose proof sqrt_pi_bounds as S. pose proof c_low as L.
  assert (U : 69 / 100 <= exp (- (c * c) + x * x) <= 145 / 100) by (apply exp_bounds; nra). rewrite exp_plus in U.
  assert (K : 99 / 100 <= 2 / sqrt PI * newton_c <= 101 / 100). { assert (2 / sqrt PI * newton_c * sqrt PI = 2 * newton_c) by (field; lra). split; nra. }
  replace (2 / sqrt PI * exp (- (c * c)) * exp (x * x) * newton_c) with ((2 / sqrt PI * newton_c) * (exp (- (c * c)) * exp (x * x))) by ring. split; nra.
Qed.
Lemma near_step x : Rabs (x - r) <= 3 / 10 -> Rabs (x + nstep erf r x - r) <= Rabs (x - r) / 2.
Proof.
  intros H. unfold nstep.
  assert (B : - (3 / 10) <= x - r <= 3 / 10) by (revert H; unfold Rabs; destruct (Rcase_abs (x - r)); lra).
  assert (F : exists f, 1 / 2 <= f <= 3 / 2 /\ x + (erf r - erf x) * exp (x * x) * newton_c - r = (x - r) * (1 - f)).
  { destruct (Rtotal_order x r) as [L|[L|L]].
    - destruct (erf_mvt erf erf_deriv x r L) as (c & (C1 & C2) & E). exists (2 / sqrt PI * exp (- (c * c)) * exp (x * x) * newton_c). split; [apply near_factor; lra|rewrite E; ring].
    - exists 1. split; [lra|]. subst x. ring.
    - destruct (erf_mvt erf erf_deriv r x L) as (c & (C1 & C2) & E). exists (2 / sqrt PI * exp (- (c * c)) * exp (x * x) * newton_c). split; [apply near_factor; lra|replace (erf r - erf x) with (- (erf x - erf r)) by ring; rewrite E; ring]. }
  destruct F as (f & Ff & E). rewrite E, Rabs_mult. assert (Rabs (1 - f) <= 1 / 2) by (unfold Rabs; destruct (Rcase_abs (1 - f)); lra). pose proof (Rabs_pos (x - r)). nra.
Qed.
Variable d : R.
Hypothesis d_pos : 0 < d < 1.
Hypothesis y_pos : 0 < erf r.
Let loop fuel x := erf_loop reals rexp (rerf erf) fuel (RFin (erf r)) (RFin (erf r * (1 + d))) (RFin (erf r * (1 - d))) (RFin x) (RFin (erf x)).
Lemma near_within x : Rabs (x - r) <= erf r * d / 2 -> within erf r d x.
Proof.
  intros H. assert (B : - (erf r * d / 2) <= x - r <= erf r * d / 2) by (revert H; unfold Rabs; destruct (Rcase_abs (x - r)); lra).
  assert (S : forall c, 0 <= 2 / sqrt PI * exp (- (c * c)) <= 2). { intros c. pose proof sqrt_pi_bounds. pose proof (exp_pos (- (c * c))). assert (exp (- (c * c)) <= 1) by (rewrite <- exp_0; destruct (Rle_lt_or_eq_dec (- (c * c)) 0) as [L|L]; [nra|left; now apply exp_increasing|rewrite L; lra]). assert (2 / sqrt PI * sqrt PI = 2) by (field; lra). assert (0 < 2 / sqrt PI) by (apply Rdiv_lt_0_compat; lra). split; nra. }
  unfold within. destruct (Rtotal_order x r) as [L|[L|L]].
  - destruct (erf_mvt erf erf_deriv x r L) as (c & _ & E). specialize (S c). split; nra.
  - subst x. split; nra.
  - destruct (erf_mvt erf erf_deriv r x L) as (c & _ & E). specialize (S c). split; nra.
Qed.
Lemma near_ends : forall n x, Rabs (x - r) <= 3 / 10 -> Rabs (x - r) <= erf r * d / 2 * 2 ^ n -> exists fuel z, loop fuel x = Ok (RFin z) /\ within erf r d z.
Proof.
  induction n as [|n IH]; intros x H P; set (x1 := x + nstep erf r x); pose proof (near_step x H) as N; fold x1 in N; pose proof (Rabs_pos (x - r)).
  - assert (W : within erf r d x1) by (apply near_within; cbn [pow] in P; nra). exists 1%nat, x1. unfold loop. rewrite (loop_step erf r d). fold x1. unfold within in W. destruct (Rlt_dec _ _); [lra|]. destruct (Rlt_dec _ _); [lra|]. split; [reflexivity|exact W].
  - destruct (IH x1) as (fuel & z & E & W); [lra|cbn [pow] in P; lra|].
    assert (D : within erf r d x1 \/ ~ within erf r d x1) by (unfold within; destruct (Rle_dec (erf r * (1 - d)) (erf x1)), (Rle_dec (erf x1) (erf r * (1 + d))); lra).
    destruct D as [D|D].
    + exists 1%nat, x1. unfold loop. rewrite (loop_step erf r d). fold x1. unfold within in D. destruct (Rlt_dec _ _); [lra|]. destruct (Rlt_dec _ _); [lra|]. split; [reflexivity|exact D].
    + exists (S fuel), z. split; [|exact W]. unfold loop. rewrite (loop_step erf r d). fold x1. destruct (Rlt_dec _ _); [exact E|]. destruct (Rlt_dec _ _); [exact E|]. exfalso. apply D. unfold within. lra.
Qed.
Lemma near_converges x : Rabs (x - r) <= 3 / 10 -> exists fuel z, loop fuel x = Ok (RFin z) /\ within erf r d z.
Proof.
  intros H. assert (P : 0 < erf r * d / 2) by nra. destruct (INR_above (3 / 10 / (erf r * d / 2))) as (n & N).
  apply (near_ends n); [exact H|]. assert (I : INR n <= 2 ^ n). { clear. induction n as [|n IH]; [cbn; lra|]. rewrite S_INR. cbn [pow]. assert (1 <= 2 ^ n) by (apply pow_R1_Rle; lra). lra. }
  assert (3 / 10 <= erf r * d / 2 * INR n). { apply Rmult_le_reg_r with (/ (erf r * d / 2)); [now apply Rinv_0_lt_compat|]. replace (erf r * d / 2 * INR n * / (erf r * d / 2)) with (INR n) by (field; lra). unfold Rdiv in N at 1. lra. }
  assert (erf r * d / 2 * INR n <= erf r * d / 2 * 2 ^ n) by (apply Rmult_le_compat_l; lra). lra.
Qed.
End Near.

(** Values of exp between powers. *)
Lemma exp_low a n : 0 <= 1 + a -> (1 + a) ^ n <= exp (INR n * a).
Proof.
  intros H. induction n as [|n IH]; [cbn; rewrite Rmult_0_l, exp_0; lra|]. rewrite S_INR. replace ((INR n + 1) * a) with (a + INR n * a) by ring. rewrite exp_plus. cbn [pow]. pose proof (exp_ineq1_le a). apply Rmult_le_compat; [exact H|apply pow_le; exact H|lra|exact IH].
Qed.
Lemma exp_low64 s : -64 <= s -> (1 + s / 64) ^ 64 <= exp s.
Proof. intros H. assert (H' : 0 <= 1 + s / 64) by lra. pose proof (exp_low (s / 64) 64 H') as E. replace (INR 64 * (s / 64)) with s in E; [exact E|]. replace (INR 64) with 64 by (rewrite INR_IZR_INZ; reflexivity). clear E. field. Qed.
Lemma exp_mono a b : a <= b -> exp a <= exp b.
Proof. intros [H|H]; [left; now apply exp_increasing|subst; lra]. Qed.
Lemma exp_up64 s b : s <= 64 -> 1 <= b * (1 - s / 64) ^ 64 -> exp s <= b.
Proof.
  intros H B. pose proof (exp_low64 (- s)) as E. assert (H' : -64 <= - s) by (clear B E; lra). specialize (E H'). replace (1 + - s / 64) with (1 - s / 64) in E by (clear; field).
  assert (P0 : 0 <= 1 - s / 64) by (clear B E; lra). pose proof (pow_le (1 - s / 64) 64 P0) as P1. clear H H' P0. revert B E P1. generalize ((1 - s / 64) ^ 64). intros p B E P1.
  assert (P : exp s * exp (- s) = 1) by (rewrite <- exp_plus, Rplus_opp_r; apply exp_0). pose proof (exp_pos s). pose proof (exp_pos (- s)).
  assert (B0 : 0 < b) by (destruct (Rlt_or_le 0 b) as [L|L]; [exact L|exfalso; nra]). nra.
Qed.

Definition gk : R := 7071067811865476 / 10000000000000000.
Definition gN (t : R) : R := 2515517 / 1000000 + t * (802853 / 1000000 + t * (10328 / 1000000)).
Definition gD (t : R) : R := 1 + t * (1432788 / 1000000 + t * (189269 / 1000000 + t * (1308 / 1000000))).
Definition gG (t : R) : R := gk * (t - gN t / gD t).
Definition gT (y : R) : R := sqrt (-2 * ln (5 / 10 * (1 - y))).
Lemma gT_nonneg y : 0 <= gT y.
Proof. apply sqrt_pos. Qed.
Lemma gT_exp y : 0 < y < 1 -> exp (gT y * gT y / 2) * (1 - y) = 2.
Proof.
  intros H. unfold gT. assert (L : ln (5 / 10 * (1 - y)) <= 0) by (left; rewrite <- ln_1; apply ln_increasing; lra).
  rewrite sqrt_sqrt by lra. replace (-2 * ln (5 / 10 * (1 - y)) / 2) with (- ln (5 / 10 * (1 - y))) by field. rewrite exp_Ropp, exp_ln by lra. field. lra.
Qed.
Lemma gD_pos t : 0 <= t -> 1 <= gD t.
Proof. intros H. unfold gD. assert (0 <= t * (189269 / 1000000 + t * (1308 / 1000000))) by (apply Rmult_le_pos; [lra|nra]). nra. Qed.
Lemma gG_le t g : 0 <= t -> gk * (t * gD t - gN t) <= g * gD t -> gG t <= g.
Proof. intros H B. pose proof (gD_pos t H). unfold gG. apply Rmult_le_reg_r with (gD t); [lra|]. replace (gk * (t - gN t / gD t) * gD t) with (gk * (t * gD t - gN t)) by (field; lra). exact B. Qed.
Lemma gG_ge t g : 0 <= t -> g * gD t <= gk * (t * gD t - gN t) -> g <= gG t.
Proof. intros H B. pose proof (gD_pos t H). unfold gG. apply Rmult_le_reg_r with (gD t); [lra|]. replace (gk * (t - gN t / gD t) * gD t) with (gk * (t * gD t - gN t)) by (field; lra). exact B. Qed.

(** The bounds the convergence needs. *)
Lemma gT_above y s b : 0 < y < 1 -> 0 <= b -> exp (b * b / 2) <= s -> s * (1 - y) <= 2 -> b <= gT y.
Proof.
  intros Y B E L. destruct (Rle_or_lt b (gT y)) as [H|H]; [exact H|]. exfalso. pose proof (gT_nonneg y). pose proof (gT_exp y Y) as X.
  assert (M : exp (gT y * gT y / 2) < exp (b * b / 2)) by (apply exp_increasing; nra). nra.
Qed.
Lemma gT_below y s b : 0 < y < 1 -> 0 <= b -> s <= exp (b * b / 2) -> 2 <= s * (1 - y) -> gT y <= b.
Proof.
  intros Y B E L. destruct (Rle_or_lt (gT y) b) as [H|H]; [exact H|]. exfalso. pose proof (gT_nonneg y). pose proof (gT_exp y Y) as X.
  assert (M : exp (b * b / 2) < exp (gT y * gT y / 2)) by (apply exp_increasing; nra). nra.
Qed.
Lemma gT_y y s b : 0 < y < 1 -> 0 <= b <= gT y -> 0 < s <= exp (b * b / 2) -> 1 - y <= 2 / s.
Proof.
  intros Y B (S & E). pose proof (gT_exp y Y) as X. assert (M : exp (b * b / 2) <= exp (gT y * gT y / 2)) by (apply exp_mono; nra). apply Rmult_le_reg_r with s; [exact S|]. unfold Rdiv. rewrite Rmult_assoc, Rinv_l by lra. nra.
Qed.
Ltac by_power := match goal with |- exp ?s <= ?b => apply exp_up64; lra | |- ?b <= exp ?s => apply Rle_trans with ((1 + s / 64) ^ 64); [lra|apply exp_low64; lra] end.
Lemma gT_ge_117 y : 0 < y < 1 -> 117 / 100 <= gT y.
Proof. intros H. apply (gT_above y 2); [exact H|lra|by_power|lra]. Qed.
Lemma gT_le_141 y : 0 < y <= 1 / 4 -> gT y <= 141 / 100.
Proof. intros H. apply (gT_below y (8 / 3)); [lra|lra|by_power|lra]. Qed.
Lemma gT_ge_139 y : 1 / 4 <= y < 1 -> 139 / 100 <= gT y.
Proof. intros H. apply (gT_above y (8 / 3)); [lra|lra|by_power|lra]. Qed.
Lemma gT_le_11 y : 0 < y <= 1 - / 2 ^ 53 -> gT y <= 11.
Proof.
  intros H. assert (P : 0 < / 2 ^ 53) by (apply Rinv_0_lt_compat; lra). apply (gT_below y (2 * 2 ^ 53)); [lra|lra|by_power|]. assert (2 ^ 53 * / 2 ^ 53 = 1) by (apply Rinv_r; lra). nra.
Qed.
Lemma guess_small t : 117 / 100 <= t <= 141 / 100 -> -1 / 100 <= gG t <= 1 / 4.
Proof. intros H. split; [apply gG_ge|apply gG_le]; try lra; unfold gk, gD, gN; nra. Qed.
Lemma guess_nonneg t : 139 / 100 <= t -> 0 <= gG t.
Proof. intros H. apply gG_ge; [lra|]. unfold gk, gD, gN. assert (0 <= t * t * (t - 139 / 100)) by (apply Rmult_le_pos; nra). assert (0 <= t * t * t * (t - 139 / 100)) by (apply Rmult_le_pos; [apply Rmult_le_pos|]; nra). nra. Qed.
Lemma Rerf_lin x : 0 <= x -> Rerf x <= 2 / sqrt PI * x.
Proof.
  intros [H|H]; [|subst; rewrite Rerf_0; lra]. destruct (erf_mvt Rerf Rerf_deriv 0 x H) as (c & _ & E). rewrite Rerf_0 in E. pose proof sqrt_pi_bounds. assert (0 < 2 / sqrt PI) by (apply Rdiv_lt_0_compat; lra).
  assert (exp (- (c * c)) <= 1) by (rewrite <- exp_0; apply exp_mono; nra). pose proof (exp_pos (- (c * c))). assert (2 / sqrt PI * exp (- (c * c)) <= 2 / sqrt PI) by nra. nra.
Qed.
Lemma two_sqrt_pi : 112 / 100 <= 2 / sqrt PI <= 113 / 100.
Proof. pose proof sqrt_pi_bounds. assert (2 / sqrt PI * sqrt PI = 2) by (field; lra). split; nra. Qed.
Definition good (y g : R) : Prop := Rerf g <= y * (1 + exp (- (g * g))).
Lemma piece y a b s g yl : 0 < y < 1 -> 0 <= a -> a <= gT y <= b -> 0 < s <= exp (a * a / 2) -> (forall t, a <= t <= b -> 0 <= gG t <= g) -> g <= 9 / 10 -> yl <= 1 - 2 / s -> 0 <= yl -> 113 / 100 * g <= yl * (2 - g * g) -> good y (gG (gT y)).
Proof.
  intros Y A T S G G9 L L0 B. destruct (G _ T) as (G0 & G1). unfold good. pose proof (Rerf_lin _ G0) as E. pose proof two_sqrt_pi as P. pose proof (gT_y y s a Y ltac:(lra) S) as Yl. pose proof (exp_ineq1_le (- (gG (gT y) * gG (gT y)))) as X.
  set (z := gG (gT y)) in *. assert (Y1 : yl <= y) by lra. assert (Z2 : z * z <= g * g) by nra.
  assert (A1 : 2 / sqrt PI * z <= 113 / 100 * z) by (apply Rmult_le_compat_r; lra). assert (A2 : 113 / 100 * z <= 113 / 100 * g) by lra.
  assert (A3 : yl * (2 - g * g) <= y * (2 - z * z)) by (apply Rmult_le_compat; nra). assert (A4 : y * (2 - z * z) <= y * (1 + exp (- (z * z)))) by (apply Rmult_le_compat_l; lra). lra.
Qed.
Ltac guess_le := let t := fresh in let H := fresh in intros t H; split; [apply guess_nonneg; lra|apply gG_le; [lra|unfold gk, gD, gN; nra]].
Lemma good_mid y : 1 / 4 <= y < 1 -> gT y <= 2 -> good y (gG (gT y)).
Proof.
  intros Y T. pose proof (gT_ge_139 y Y) as T0. assert (Y' : 0 < y < 1) by lra.
  destruct (Rle_or_lt (gT y) (155 / 100)) as [L|L].
  { assert (G : 0 <= gG (gT y) <= 37 / 100) by (revert T0 L; generalize (gT y); intros t T0 L; split; [apply guess_nonneg; lra|apply gG_le; [lra|unfold gk, gD, gN; nra]]).
    unfold good. pose proof (Rerf_lin _ (proj1 G)) as E. pose proof two_sqrt_pi as P. pose proof (exp_ineq1_le (- (gG (gT y) * gG (gT y)))) as X. set (z := gG (gT y)) in *.
    assert (A1 : 2 / sqrt PI * z <= 113 / 100 * z) by (apply Rmult_le_compat_r; lra). assert (A3 : 1 / 4 * (2 - z * z) <= y * (1 + exp (- (z * z)))) by (apply Rmult_le_compat; nra). nra. }
  destruct (Rle_or_lt (gT y) (170 / 100)) as [L2|L2].
  { apply (piece y (155 / 100) (170 / 100) (32787 / 10000) (51 / 100) (39 / 100)); try lra; [split; [lra|by_power]|guess_le]. }
  destruct (Rle_or_lt (gT y) (185 / 100)) as [L3|L3].
  { apply (piece y (170 / 100) (185 / 100) (41667 / 10000) (65 / 100) (52 / 100)); try lra; [split; [lra|by_power]|guess_le]. }
  destruct (Rle_or_lt (gT y) (195 / 100)) as [L4|L4].
  { apply (piece y (185 / 100) (195 / 100) (54055 / 10000) (74 / 100) (63 / 100)); try lra; [split; [lra|by_power]|guess_le]. }
  apply (piece y (195 / 100) 2 (64517 / 10000) (785 / 1000) (69 / 100)); try lra; [split; [lra|by_power]|guess_le].
Qed.
Lemma gap t : 2 <= t <= 11 -> 105 / 100 <= t * t / 2 - gG t * gG t.
Proof.
  intros H. pose proof (gD_pos t ltac:(lra)) as D. set (h := gN t / gD t).
  assert (N : 0 <= gN t) by (unfold gN; nra). assert (H0 : 0 <= h) by (apply Rmult_le_pos; [exact N|left; apply Rinv_0_lt_compat; lra]). assert (H1 : h <= t). { apply Rmult_le_reg_r with (gD t); [lra|]. unfold h, Rdiv. rewrite Rmult_assoc, Rinv_l by lra. unfold gN, gD. nra. }
  assert (P : 106 / 100 <= h * (t - h / 2)).
  { apply Rmult_le_reg_r with (gD t * gD t); [nra|]. replace (h * (t - h / 2) * (gD t * gD t)) with (gN t * (t * gD t - gN t / 2)) by (unfold h; field; lra).
    replace t with (2 + (t - 2)) by ring. set (s := t - 2). assert (S : 0 <= s) by (unfold s; lra). assert (S2 : 0 <= s * s) by nra. assert (S3 : 0 <= s * s * s) by nra. assert (S4 : 0 <= s * s * s * s) by nra. assert (S5 : 0 <= s * s * s * s * s) by nra. assert (S6 : 0 <= s * s * s * s * s * s) by nra. unfold gN, gD. lra. }
  unfold gG. fold h. replace (gk * (t - h) * (gk * (t - h))) with (gk * gk * ((t - h) * (t - h))) by ring. assert (K : gk * gk <= 1 / 2 + 1 / 100000) by (unfold gk; lra). assert (Q : 0 <= (t - h) * (t - h) <= 121) by nra. nra.
Qed.
Lemma good_far y : 0 < y <= 1 - / 2 ^ 53 -> 2 <= gT y -> good y (gG (gT y)).
Proof.
  intros Y T. pose proof (gT_le_11 y Y) as T11. assert (P : 0 < / 2 ^ 53) by (apply Rinv_0_lt_compat; lra). assert (Y' : 0 < y < 1) by (clear - Y P; lra). clear P Y. pose proof (gap (gT y) (conj T T11)) as G.
  assert (Y72 : 72 / 100 <= y). { assert (E : 0 < 7143 / 1000 <= exp (2 * 2 / 2)) by (split; [lra|by_power]). pose proof (gT_y y (7143 / 1000) 2 Y' ltac:(lra) E). lra. }
  unfold good. pose proof (Rerf_lt_1 (gG (gT y))) as E1. pose proof (gT_exp y Y') as X. set (t := gT y) in *. set (z := gG t) in *.
  assert (E2 : 278 / 100 <= exp (t * t / 2 - z * z)). { apply Rle_trans with (exp (105 / 100)); [by_power|now apply exp_mono]. }
  unfold Rminus in E2. rewrite exp_plus in E2. pose proof (exp_pos (- (z * z))). pose proof (exp_pos (t * t / 2)). assert (M : 278 / 100 * (1 - y) <= 2 * exp (- (z * z))). { rewrite <- X. nra. } nra.
Qed.
Lemma dec_R n k : (0 <= k)%Z -> dec reals n k = RFin (IZR n / IZR (10 ^ k)).
Proof. intros H. unfold dec. cbn. destruct (Req_EM_T (IZR (10 ^ k)) 0) as [C|C]; [exfalso; apply eq_IZR in C; pose proof (Z.pow_pos_nonneg 10 k ltac:(lia) H); lia|reflexivity]. Qed.
Lemma guess_R y : -1 < y < 1 -> erf_guess reals rsqrt rlog (RFin y) = RFin (gG (gT y)).
Proof.
  intros Y. unfold erf_guess. rewrite !dec_R by lia. cbn [nmul nsub nadd of_int reals rop].
  assert (E5 : IZR 5 / IZR (10 ^ 1) = 5 / 10) by (change (10 ^ 1)%Z with 10%Z; reflexivity). rewrite E5.
  unfold rlog. destruct (Rlt_dec 0 (5 / 10 * (1 - y))) as [L|L]; [|lra]. cbn [nmul nsub nadd of_int reals rop].
  assert (L0 : ln (5 / 10 * (1 - y)) <= 0) by (left; rewrite <- ln_1; apply ln_increasing; lra).
  unfold rsqrt. destruct (Rle_dec 0 (-2 * ln (5 / 10 * (1 - y)))) as [L1|L1]; [|lra]. fold (gT y). pose proof (gT_nonneg y) as T. pose proof (gD_pos (gT y) T) as D.
  change (10 ^ 6)%Z with 1000000%Z. change (10 ^ 16)%Z with 10000000000000000%Z. cbn [nmul nsub nadd ndiv of_int reals rop]. fold (gD (gT y)). fold (gN (gT y)). destruct (Req_EM_T (gD (gT y)) 0) as [C|C]; [lra|]. reflexivity.
Qed.
(** inverseErf on the positive numbers up to the largest double below 1. *)
Lemma inverse_erf_real y : 0 < y <= 1 - / 2 ^ 53 ->
  exists fuel z, inverseErf reals rsqrt rlog rexp real_erf fuel (RFin y) = Ok (RFin z) /\
    y * (1 - 1 / 10 ^ 14) <= Rerf z <= y * (1 + 1 / 10 ^ 14).
Proof.
  intros Y. assert (P : 0 < / 2 ^ 53) by (apply Rinv_0_lt_compat; lra). assert (Y' : 0 < y < 1) by (clear - Y P; lra).
  destruct (Rerf_onto y Y') as (r & R0 & Er). set (d := 1 / 10 ^ 14). assert (Dd : 0 < d < 1) by (unfold d; lra).
  assert (Q : exists fuel z, erf_loop reals rexp (rerf Rerf) fuel (RFin (Rerf r)) (RFin (Rerf r * (1 + d))) (RFin (Rerf r * (1 - d))) (RFin (gG (gT y))) (RFin (Rerf (gG (gT y)))) = Ok (RFin z) /\ within Rerf r d z).
  { destruct (Rle_or_lt y (1 / 4)) as [S|S].
    - pose proof (gT_ge_117 y Y') as T1. pose proof (gT_le_141 y (conj (proj1 Y') S)) as T2. pose proof (guess_small _ (conj T1 T2)) as G.
      assert (R4 : r <= 1 / 4). { destruct (Rle_or_lt r (1 / 4)) as [L|L]; [exact L|]. exfalso. assert (M : 0 < 1 / 4) by lra. destruct (erf_mvt Rerf Rerf_deriv 0 (1 / 4) M) as (c & C & E). rewrite Rerf_0 in E. pose proof (erf_incr Rerf Rerf_deriv (1 / 4) r L). pose proof two_sqrt_pi. pose proof (exp_ineq1_le (- (c * c))). assert (15 / 16 <= exp (- (c * c))) by nra. nra. }
      apply near_converges; [exact Rerf_deriv|lra|exact Dd|lra|]. unfold Rabs. destruct (Rcase_abs (gG (gT y) - r)); lra.
    - assert (G0 : 0 <= gG (gT y)) by (apply guess_nonneg, gT_ge_139; lra).
      assert (G : good y (gG (gT y))) by (destruct (Rle_or_lt (gT y) 2); [apply good_mid; lra|apply good_far; [exact Y|lra]]).
      apply loop_converges; [exact Rerf_deriv|exact R0|exact Dd| |lra|exact G0]. unfold nstep. rewrite Er. unfold good in G. set (z := gG (gT y)) in *.
      assert (X : exp (- (z * z)) * exp (z * z) = 1) by (rewrite <- exp_plus, Rplus_opp_l; apply exp_0). pose proof (exp_pos (z * z)) as Xp. pose proof c_low as Cl.
      assert (A1 : (Rerf z - y) * exp (z * z) <= y). { apply Rle_trans with (y * exp (- (z * z)) * exp (z * z)); [apply Rmult_le_compat_r; lra|]. rewrite Rmult_assoc, X. lra. }
      assert (A2 : y * newton_c <= r). { pose proof (Rerf_lin r ltac:(lra)) as Lr. rewrite Er in Lr. pose proof c_le as C2. pose proof sqrt_PI_pos as SP. assert (2 / sqrt PI * r * (sqrt PI / 2) = r) by (field; lra). assert (y * newton_c <= y * (sqrt PI / 2)) by (apply Rmult_le_compat_l; lra). assert (y * (sqrt PI / 2) <= 2 / sqrt PI * r * (sqrt PI / 2)) by (apply Rmult_le_compat_r; lra). lra. }
      assert (A3 : (Rerf z - y) * exp (z * z) * newton_c <= y * newton_c) by (apply Rmult_le_compat_r; lra). replace (- ((y - Rerf z) * exp (z * z) * newton_c)) with ((Rerf z - y) * exp (z * z) * newton_c) by ring. lra. }
  destruct Q as (fuel & z & E & W). exists fuel, z. rewrite Er in E. unfold within in W. rewrite Er in W. split; [|exact W].
  change real_erf with (rerf Rerf). unfold inverseErf. rewrite guess_R by lra. rewrite !dec_R by lia. cbn [nmul of_int reals rop nle rcmp].
  unfold dabs. cbn [nlt nle nopp of_int reals rop rcmp]. 
  assert (U : y * (IZR 100000000000001 / IZR (10 ^ 14)) = y * (1 + d)) by (unfold d; change (10 ^ 14)%Z with 100000000000000%Z; lra).
  assert (L : y * (IZR 99999999999999 / IZR (10 ^ 14)) = y * (1 - d)) by (unfold d; change (10 ^ 14)%Z with 100000000000000%Z; lra).
  rewrite U, L. cbn [rerf]. 
  destruct (Rlt_dec y 0) as [C|C]; [lra|]. cbn [rcmp]. destruct (Rle_dec 1 y) as [C1|C1]; [lra|]. exact E.
Qed.
(** Finite values stay finite. *)
Lemma loop_finite (erf : R -> R) : forall fuel y u l x y0,
  erf_loop reals rexp (rerf erf) fuel (RFin y) (RFin u) (RFin l) (RFin x) (RFin y0) = Fuel \/
  exists z, erf_loop reals rexp (rerf erf) fuel (RFin y) (RFin u) (RFin l) (RFin x) (RFin y0) = Ok (RFin z).
Proof.
  induction fuel as [|fuel IH]; intros; cbn [erf_loop]; [auto|]. rewrite !dec_R by lia. cbn [nadd nmul nsub reals rop rexp rerf].
  match goal with |- context [if ?c then _ else _] => destruct c end; [apply IH|eauto].
Qed.
