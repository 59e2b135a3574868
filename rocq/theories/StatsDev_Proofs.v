(** Lemmas about the mean, the variance and the standard deviation in doubles. *)
From Coq Require Import Bool List ZArith Reals Lia Lra Psatz.
From Flocq Require Import Core BinarySingleNaN.
From Verif Require Import Common Double64 Arith Stats_Spec Stats_DSpec Stats_DProofs Stats_Model StatsDev_Model StatsDev_Spec.
Import ListNotations.
Local Open Scope R_scope.

(** Rounding. *)
Lemma ulp1_pos : 0 < ulp1.
Proof. unfold ulp1. apply Rinv_0_lt_compat. apply IZR_lt. lia. Qed.
Lemma ulp1_small : ulp1 <= / 1000.
Proof. unfold ulp1. apply Rinv_le; [lra|]. apply IZR_le. lia. Qed.
Lemma rnd_err : forall x y, Rabs x <= y -> bpow radix2 (-1022) <= y -> Rabs (rnd x - x) <= ulp1 * y.
Proof.
  intros x y H L. assert (Y : 0 < y) by (eapply Rlt_le_trans; [apply bpow_gt_0|exact L]).
  pose proof (error_le_half_ulp radix2 fexp64 (fun z => negb (Z.even z)) x) as E.
  assert (M : ulp radix2 fexp64 x <= ulp radix2 fexp64 y).
  { rewrite <- (ulp_abs radix2 fexp64 x). apply ulp_le_pos; [apply FLT_exp_valid; reflexivity|apply FLT_exp_monotone|apply Rabs_pos|exact H]. }
  assert (U : ulp radix2 fexp64 y <= Rabs y * bpow radix2 (1 - 53)).
  { change fexp64 with (FLT_exp (-1074) 53). apply ulp_FLT_le. rewrite Rabs_pos_eq by lra. exact L. }
  rewrite Rabs_pos_eq in U by lra. change (bpow radix2 (1 - 53)) with (/ IZR (2 ^ 52)) in U.
  assert (V : / IZR (2 ^ 52) = 2 * ulp1). { unfold ulp1. change (2 ^ 53)%Z with (2 * 2 ^ 52)%Z. rewrite mult_IZR. field. apply not_0_IZR. lia. }
  rewrite V in U. assert (E' : Rabs (rnd x - x) <= / 2 * ulp radix2 fexp64 x) by exact (E). lra.
Qed.
Lemma fmt_mul : forall z e, (0 <= z <= 2 ^ 53)%Z -> (-1074 <= e)%Z -> generic_format radix2 fexp64 (IZR z * bpow radix2 e).
Proof.
  intros z e H He. destruct (Z.eq_dec z (2 ^ 53)) as [->|N].
  - replace (IZR (2 ^ 53) * bpow radix2 e) with (bpow radix2 (53 + e)); [apply fmt_bpow; lia|]. rewrite bpow_plus. reflexivity.
  - apply fmt_F2R; lia.
Qed.
Lemma rnd_abs_mul : forall x z e, (0 <= z <= 2 ^ 53)%Z -> (-1074 <= e)%Z -> Rabs x <= IZR z * bpow radix2 e -> Rabs (rnd x) <= IZR z * bpow radix2 e.
Proof.
  intros x z e H He L. apply abs_round_le_generic; [apply FLT_exp_valid; reflexivity|apply valid_rnd_N|now apply fmt_mul|exact L].
Qed.
Lemma rnd_nonneg : forall x, 0 <= x -> 0 <= rnd x.
Proof. intros x H. rewrite <- rnd_0. now apply rnd_le. Qed.
Lemma rnd_B2R : forall x : double, rnd (B2R x) = B2R x.
Proof. intros. apply rnd_id. apply generic_format_B2R. Qed.

(** One addition of two partial sums, of [n] and [m] terms no larger than 2^w. *)
Section Add.
Variables (w : Z).
Hypothesis W1 : (-1022 <= w <= 960)%Z.
Let W := bpow radix2 w.
Lemma W_pos : 0 < W.
Proof. apply bpow_gt_0. Qed.
Lemma W_min : bpow radix2 (-1022) <= W.
Proof. apply bpow_le. lia. Qed.
Lemma mul_big : forall n, (0 <= n <= 2 ^ 53)%Z -> IZR n * W <= bpow radix2 1013.
Proof.
  intros n H. apply Rle_trans with (bpow radix2 (53 + w)); [|apply bpow_le; lia].
  rewrite bpow_plus. apply Rmult_le_compat_r; [apply bpow_ge_0|]. change (bpow radix2 53) with (IZR (2 ^ 53)). apply IZR_le. lia.
Qed.
Lemma add_step : forall (a b : double) n m, (0 <= n)%Z -> (0 <= m)%Z -> (n + m <= 2 ^ 53)%Z ->
  is_finite a = true -> is_finite b = true -> Rabs (B2R a) <= IZR n * W -> Rabs (B2R b) <= IZR m * W ->
  is_finite (dadd a b) = true /\ B2R (dadd a b) = rnd (B2R a + B2R b) /\ Rabs (B2R (dadd a b)) <= IZR (n + m) * W /\
  Rabs (B2R (dadd a b) - (B2R a + B2R b)) <= if ((n =? 0) || (m =? 0))%Z then 0 else ulp1 * (IZR (n + m) * W).
Proof.
  intros a b n m Hn Hm L Fa Fb A B.
  assert (S : Rabs (B2R a + B2R b) <= IZR (n + m) * W).
  { eapply Rle_trans; [apply Rabs_triang|]. rewrite plus_IZR. lra. }
  destruct (dadd_spec a b 1013 Fa Fb) as [E F]; [lia|eapply Rle_trans; [exact S|apply mul_big; lia]|].
  split; [exact F|]. split; [exact E|]. split; [rewrite E; apply rnd_abs_mul; [lia|lia|exact S]|].
  assert (Z0 : forall x : double, Rabs (B2R x) <= IZR 0 * W -> B2R x = 0).
  { intros x H. rewrite Rmult_0_l in H. destruct (Req_dec (B2R x) 0) as [Q|Q]; [exact Q|]. apply Rabs_pos_lt in Q. lra. }
  destruct (n =? 0)%Z eqn:N0; [|destruct (m =? 0)%Z eqn:M0]; cbn [orb].
  - apply Z.eqb_eq in N0. subst n. rewrite E, (Z0 a A), Rplus_0_l, rnd_B2R. replace (B2R b - B2R b) with 0 by ring. rewrite Rabs_R0. lra.
  - apply Z.eqb_eq in M0. subst m. rewrite E, (Z0 b B), Rplus_0_r, rnd_B2R. replace (B2R a - B2R a) with 0 by ring. rewrite Rabs_R0. lra.
  - rewrite E. apply rnd_err; [exact S|]. apply Rle_trans with (1 * W); [pose proof W_min; lra|]. apply Rmult_le_compat_r; [apply bpow_ge_0|]. apply IZR_le. lia.
Qed.
(** [a] stands for the sum [x] of [n] terms. *)
Definition good (c : Z) (n : Z) (a : double) (x : R) : Prop :=
  is_finite a = true /\ Rabs (B2R a) <= IZR n * W /\ Rabs (B2R a - x) <= IZR (n * n + c * n) * (ulp1 * W).
Lemma good_add : forall c n m a b x y, (0 <= c)%Z -> (0 <= n)%Z -> (0 <= m)%Z -> (n + m <= 2 ^ 53)%Z ->
  good c n a x -> good c m b y -> good c (n + m) (dadd a b) (x + y).
Proof.
  intros c n m a b x y Hc Hn Hm L (Fa & Ba & Ea) (Fb & Bb & Eb).
  destruct (add_step a b n m Hn Hm L Fa Fb Ba Bb) as (F & _ & B & E). split; [exact F|]. split; [exact B|].
  assert (T : 0 < ulp1 * W) by (apply Rmult_lt_0_compat; [apply ulp1_pos|apply W_pos]).
  set (t := ulp1 * W) in *. set (s := dadd a b) in *.
  assert (D : Rabs (B2R s - (x + y)) <= Rabs (B2R s - (B2R a + B2R b)) + (Rabs (B2R a - x) + Rabs (B2R b - y))).
  { replace (B2R s - (x + y)) with ((B2R s - (B2R a + B2R b)) + ((B2R a - x) + (B2R b - y))) by ring.
    eapply Rle_trans; [apply Rabs_triang|]. apply Rplus_le_compat_l. apply Rabs_triang. }
  assert (E' : Rabs (B2R s - (B2R a + B2R b)) <= IZR (if ((n =? 0) || (m =? 0))%Z then 0 else n + m) * t).
  { destruct ((n =? 0) || (m =? 0))%Z; [lra|]. unfold t. rewrite <- Rmult_assoc, (Rmult_comm (IZR (n + m)) ulp1), Rmult_assoc. exact E. }
  apply Rle_trans with (IZR ((if ((n =? 0) || (m =? 0))%Z then 0 else n + m) + ((n * n + c * n) + (m * m + c * m))) * t).
  - rewrite plus_IZR, (plus_IZR (n * n + c * n)), !Rmult_plus_distr_r. lra.
  - apply Rmult_le_compat_r; [lra|]. apply IZR_le. destruct (n =? 0)%Z eqn:N0; [|destruct (m =? 0)%Z eqn:M0]; cbn [orb]; nia.
Qed.
End Add.

(** Sums over lists. *)
Lemma rsum_app : forall l k, rsum (l ++ k) = rsum l + rsum k.
Proof. induction l as [|x l IH]; intros k; [change (rsum k = 0 + rsum k); ring|]. change (x + rsum (l ++ k) = x + rsum l + rsum k). rewrite IH. ring. Qed.
Lemma rsum_scale : forall (f g : R -> R) c l, (forall x, f x = c * g x) -> rsum (map f l) = c * rsum (map g l).
Proof. intros f g c l H. induction l as [|x l IH]; [unfold rsum; cbn; ring|]. change (f x + rsum (map f l) = c * (g x + rsum (map g l))). rewrite IH, H. ring. Qed.
Lemma rsum_nonneg : forall l, Forall (fun x => 0 <= x) l -> 0 <= rsum l.
Proof. induction 1 as [|x l H _ IH]; [unfold rsum; cbn; lra|]. change (0 <= x + rsum l). lra. Qed.
Lemma rlen_cons : forall (x : R) l, rlen (x :: l) = 1 + rlen l.
Proof. intros. unfold rlen. cbn [length]. rewrite Nat2Z.inj_succ, succ_IZR. ring. Qed.
Lemma rsum_dev : forall m l, rsum (map (fun x => (x - m) * (x - m)) l) = rsum (map (fun x => x * x) l) - 2 * m * rsum l + m * m * rlen l.
Proof.
  intros m. induction l as [|x l IH]; [unfold rlen, rsum; cbn; ring|].
  rewrite rlen_cons. cbn [map]. change (rsum (x :: l)) with (x + rsum l). change (rsum (x * x :: map (fun x => x * x) l)) with (x * x + rsum (map (fun x => x * x) l)).
  change (rsum ((x - m) * (x - m) :: map (fun x => (x - m) * (x - m)) l)) with ((x - m) * (x - m) + rsum (map (fun x => (x - m) * (x - m)) l)). rewrite IH. ring.
Qed.
Lemma rlen_pos : forall X (l : list X), l <> [] -> 1 <= rlen l.
Proof. intros X [|x l] H; [now destruct H|]. unfold rlen. apply IZR_le. cbn [length]. lia. Qed.
Lemma rvar_alt : forall l, l <> [] -> rvar l = rsum (map (fun x => x * x) l) / rlen l - rmean l * rmean l.
Proof.
  intros l N. unfold rvar. rewrite rsum_dev. pose proof (rlen_pos _ l N). unfold rmean. field. lra.
Qed.
Lemma rvar_nonneg : forall l, 0 <= rvar l.
Proof.
  intros l. unfold rvar. destruct l as [|x l]; [unfold rlen, rsum, Rdiv; cbn; rewrite Rmult_0_l; lra|].
  apply Rmult_le_pos; [|apply Rlt_le, Rinv_0_lt_compat; pose proof (rlen_pos _ (x :: l) ltac:(discriminate)); lra].
  apply rsum_nonneg. apply Forall_forall. intros y H. apply in_map_iff in H. destruct H as (z & <- & _). exact (Rle_0_sqr (z - rmean (x :: l))).
Qed.
Definition rsumsq (l : list R) : R := rsum (map (fun x => x * x) l).
Lemma rmean_bound : forall B l, l <> [] -> 0 <= B -> Forall (fun x => Rabs x <= B) l -> Rabs (rmean l) <= B.
Proof.
  intros B l N HB F. assert (S : Rabs (rsum l) <= rlen l * B).
  { clear N. induction F as [|x l H _ IH]; [unfold rlen, rsum; cbn; rewrite Rabs_R0; lra|]. rewrite rlen_cons. change (rsum (x :: l)) with (x + rsum l).
    eapply Rle_trans; [apply Rabs_triang|]. lra. }
  pose proof (rlen_pos _ l N). unfold rmean, Rdiv. rewrite Rabs_mult, (Rabs_pos_eq (/ rlen l)) by (apply Rlt_le, Rinv_0_lt_compat; lra).
  apply Rmult_le_reg_r with (rlen l); [lra|]. rewrite Rmult_assoc, Rinv_l by lra. lra.
Qed.

(** The sums kept by an object, over every program. *)
Section Run.
Variable e : Z.
Hypothesis He : (-500 <= e <= 480)%Z.
Let B := bpow radix2 e.
Let B2 := bpow radix2 (e + e).
Lemma B2_eq : B2 = B * B.
Proof. unfold B2, B. now rewrite bpow_plus. Qed.

Definition zlen (l : list double) : Z := Z.of_nat (length l).
Definition RepS (s : stats ieee) (l : list double) : Prop :=
  number s = (zlen l mod 2 ^ 64)%Z /\
  (within e l -> (zlen l <= 2 ^ 53)%Z ->
     good e 0 (zlen l) (sum s) (rsum (reals_of l)) /\
     good (e + e) 1 (zlen l) (sumsq s) (rsumsq (reals_of l)) /\ 0 <= B2R (sumsq s)).
Lemma good_0 : forall w c, good w c 0 (of_Z 0) 0.
Proof.
  intros w c. destruct (of_Z_spec 0 ltac:(lia)) as [E F]. rewrite rnd_0 in E. split; [exact F|]. rewrite E, Z.mul_0_r.
  replace (0 - 0) with 0 by ring. rewrite Rabs_R0. replace (0 + c * 0)%Z with 0%Z by ring. rewrite !Rmult_0_l. split; apply Rle_refl.
Qed.
Lemma rep_new : RepS (st_new ieee) [].
Proof.
  split; [reflexivity|]. intros _ _. split; [apply good_0|]. split; [apply good_0|]. cbn. lra.
Qed.
Lemma within_app : forall l k, within e (l ++ k) -> within e l /\ within e k.
Proof. intros l k H. now apply Forall_app in H. Qed.
Lemma zlen_app : forall l k, zlen (l ++ k) = (zlen l + zlen k)%Z.
Proof. intros. unfold zlen. rewrite app_length. lia. Qed.
Lemma dadd_nonneg : forall (a b : double) n m, (0 <= n)%Z -> (0 <= m)%Z -> (n + m <= 2 ^ 53)%Z -> 
  is_finite a = true -> is_finite b = true -> Rabs (B2R a) <= IZR n * bpow radix2 (e + e) -> Rabs (B2R b) <= IZR m * bpow radix2 (e + e) ->
  0 <= B2R a -> 0 <= B2R b -> 0 <= B2R (dadd a b).
Proof.
  intros a b n m Hn Hm L Fa Fb A Bb Pa Pb. destruct (add_step (e + e) ltac:(lia) a b n m Hn Hm L Fa Fb A Bb) as (_ & E & _).
  rewrite E. apply rnd_nonneg. lra.
Qed.
Lemma rep_merge : forall s t l k, RepS s l -> RepS t k -> RepS (st_merge ieee s t) (l ++ k).
Proof.
  intros s t l k [N1 H1] [N2 H2]. split.
  - cbn [number st_merge]. rewrite N1, N2, zlen_app. now rewrite <- Zplus_mod.
  - intros Wi L. rewrite zlen_app in *. apply within_app in Wi. destruct Wi as [Wl Wk].
    assert (0 <= zlen l)%Z by (unfold zlen; lia). assert (0 <= zlen k)%Z by (unfold zlen; lia).
    destruct (H1 Wl ltac:(lia)) as (A1 & A2 & A3). destruct (H2 Wk ltac:(lia)) as (C1 & C2 & C3).
    unfold rsumsq, reals_of. rewrite !map_app, !rsum_app. cbn [sum sumsq st_merge nadd ieee].
    split; [apply good_add; try assumption; lia|]. split; [apply good_add; try assumption; lia|].
    destruct A2 as (a1 & a2 & _), C2 as (c1 & c2 & _). apply (dadd_nonneg _ _ (zlen l) (zlen k)); assumption.
Qed.
Lemma sq_spec : forall x : double, is_finite x = true -> Rabs (B2R x) <= B ->
  is_finite (dmul x x) = true /\ B2R (dmul x x) = rnd (B2R x * B2R x) /\ Rabs (B2R x * B2R x) <= B2 /\ Rabs (B2R (dmul x x)) <= B2.
Proof.
  intros x F H. assert (Q : Rabs (B2R x * B2R x) <= B2). { rewrite Rabs_mult, B2_eq. apply Rmult_le_compat; try apply Rabs_pos; exact H. }
  destruct (dmul_spec x x (e + e) F F) as [E F']; [lia|exact Q|]. repeat split; [exact F'|exact E|exact Q|]. rewrite E. apply rnd_abs_le; [lia|exact Q].
Qed.
Lemma rep_one : forall x s l, RepS s l -> RepS (st_add ieee s x) (l ++ [x]).
Proof.
  intros x s l [N1 H1]. split.
  - cbn [number st_add]. rewrite N1, zlen_app. cbn. now rewrite Zplus_mod_idemp_l.
  - intros Wi L. rewrite zlen_app in *. apply within_app in Wi. destruct Wi as [Wl Wk]. change (zlen [x]) with 1%Z in *.
    assert (0 <= zlen l)%Z by (unfold zlen; lia). destruct (H1 Wl ltac:(lia)) as (A1 & A2 & A3).
    inversion Wk as [|? ? [Fx Bx] _ E1]. subst. fold B in Bx.
    destruct (sq_spec x Fx Bx) as (F2 & E & Q1 & Q2).
    unfold rsumsq, reals_of. rewrite !map_app, !rsum_app. cbn [sum sumsq st_add nadd nmul ieee map rsum fold_right]. rewrite !Rplus_0_r.
    assert (G1 : good e 0 1 x (B2R x)).
    { split; [exact Fx|]. split; [now rewrite Rmult_1_l|]. replace (B2R x - B2R x) with 0 by ring. rewrite Rabs_R0.
      apply Rmult_le_pos; [apply IZR_le; lia|]. apply Rmult_le_pos; [apply Rlt_le, ulp1_pos|apply bpow_ge_0]. }
    assert (G2 : good (e + e) 1 1 (dmul x x) (B2R x * B2R x)).
    { split; [exact F2|]. split; [rewrite Rmult_1_l; exact Q2|]. rewrite E.
      apply Rle_trans with (ulp1 * B2); [apply rnd_err; [exact Q1|apply bpow_le; lia]|].
      change (1 * 1 + 1 * 1)%Z with 2%Z. fold B2. assert (0 <= ulp1 * B2) by (apply Rmult_le_pos; [apply Rlt_le, ulp1_pos|apply bpow_ge_0]). lra. }
    split; [apply good_add; try assumption; lia|]. split; [apply good_add; try assumption; lia|].
    destruct A2 as (a1 & a2 & _). apply (dadd_nonneg _ _ (zlen l) 1); try assumption; [lia| | ].
    + rewrite Rmult_1_l. exact Q2.
    + rewrite E. apply rnd_nonneg. nra.
Qed.
Lemma run_reps : forall ops i, RepS (st_run ieee (fun x : double => x) ops i) (samples ops i).
Proof.
  intros ops. unfold st_run, samples.
  assert (G : forall (f : nat -> stats ieee) g, (forall i, RepS (f i) (g i)) ->
    forall i, RepS (fold_left (st_step ieee (fun x : double => x)) ops f i) (fold_left samples_step ops g i)).
  { induction ops as [|o ops IH]; intros f g H; [exact H|]. cbn [fold_left]. apply IH. intros k. destruct o as [i x|i j|i]; cbn [st_step samples_step]; unfold set_nth; destruct (Nat.eqb k i); auto.
    - now apply rep_one.
    - now apply rep_merge.
    - apply rep_new. }
  apply G. intros i. apply rep_new.
Qed.

(** The queries. *)
Variables (s : stats ieee) (l : list double).
Hypothesis R : RepS s l.
Hypothesis Wi : within e l.
Hypothesis N : l <> [].
Hypothesis L : (zlen l <= 2 ^ 53)%Z.
Let n := IZR (zlen l).
Lemma n_pos : (1 <= zlen l)%Z.
Proof. unfold zlen. destruct l; [now destruct N|]. cbn [length]. lia. Qed.
Lemma n_pos' : 1 <= n.
Proof. apply IZR_le. apply n_pos. Qed.
Lemma num : number s = zlen l.
Proof. destruct R as [E _]. rewrite E. apply Z.mod_small. pose proof n_pos. lia. Qed.
Lemma num0 : (number s =? 0)%Z = false.
Proof. rewrite num. pose proof n_pos. lia. Qed.
Lemma num_d : B2R (of_Z (number s)) = n /\ is_finite (of_Z (number s)) = true.
Proof.
  rewrite num. pose proof n_pos. destruct (of_Z_spec (zlen l)) as [E F]; [lia|]. rewrite rnd_Z in E by lia. now split.
Qed.
Let t1 := ulp1 * B.
Let t2 := ulp1 * B2.
Lemma B_pos : 0 < B.
Proof. apply bpow_gt_0. Qed.
Lemma t1_pos : 0 < t1.
Proof. apply Rmult_lt_0_compat; [apply ulp1_pos|apply B_pos]. Qed.
Lemma t2_pos : 0 < t2.
Proof. apply Rmult_lt_0_compat; [apply ulp1_pos|apply bpow_gt_0]. Qed.
Lemma div_abs : forall x, Rabs (x / n) = Rabs x / n.
Proof. intros x. unfold Rdiv. rewrite Rabs_mult, (Rabs_pos_eq (/ n)); [reflexivity|]. apply Rlt_le, Rinv_0_lt_compat. pose proof n_pos'. lra. Qed.
Lemma div_le : forall x y, x <= n * y -> x / n <= y.
Proof. intros x y H. pose proof n_pos'. apply Rmult_le_reg_r with n; [lra|]. unfold Rdiv. rewrite Rmult_assoc, Rinv_l by lra. lra. Qed.
Lemma quotient : forall w c a x, (-1022 <= w <= 960)%Z -> good w c (zlen l) a x ->
  is_finite (ddiv a (of_Z (number s))) = true /\ Rabs (B2R (ddiv a (of_Z (number s)))) <= bpow radix2 w /\
  B2R (ddiv a (of_Z (number s))) = rnd (B2R a / n) /\
  Rabs (B2R (ddiv a (of_Z (number s))) - x / n) <= IZR (zlen l + c + 1) * (ulp1 * bpow radix2 w).
Proof.
  intros w c a x Hw (F & A & E). destruct num_d as [D1 D2]. pose proof n_pos' as P. fold n in A.
  assert (Q : Rabs (B2R a / n) <= bpow radix2 w) by (rewrite div_abs; now apply div_le).
  destruct (ddiv_spec a (of_Z (number s)) w F) as [E1 E2]; [rewrite D1; lra|lia|rewrite D1; exact Q|]. rewrite D1 in E1.
  split; [exact E2|]. rewrite E1. split; [apply rnd_abs_le; [lia|exact Q]|]. split; [reflexivity|].
  assert (H1 : Rabs (rnd (B2R a / n) - B2R a / n) <= ulp1 * bpow radix2 w) by (apply rnd_err; [exact Q|apply bpow_le; lia]).
  assert (H2 : Rabs (B2R a / n - x / n) <= IZR (zlen l + c) * (ulp1 * bpow radix2 w)).
  { replace (B2R a / n - x / n) with ((B2R a - x) / n) by (field; lra). rewrite div_abs. apply div_le.
    rewrite <- Rmult_assoc. unfold n. rewrite <- mult_IZR. replace (zlen l * (zlen l + c))%Z with (zlen l * zlen l + c * zlen l)%Z by ring. exact E. }
  replace (rnd (B2R a / n) - x / n) with ((rnd (B2R a / n) - B2R a / n) + (B2R a / n - x / n)) by ring.
  eapply Rle_trans; [apply Rabs_triang|]. rewrite (plus_IZR (zlen l + c)). lra.
Qed.
Let xs := reals_of l.
Lemma xs_len : rlen xs = n.
Proof. unfold rlen, xs, reals_of, n, zlen. now rewrite map_length. Qed.
Lemma xs_nil : xs <> [].
Proof. unfold xs, reals_of. destruct l; [now destruct N|discriminate]. Qed.
Lemma xs_bound : Forall (fun x => Rabs x <= B) xs.
Proof. unfold xs, reals_of. apply Forall_map. eapply Forall_impl; [|exact Wi]. now intros x [_ H]. Qed.
Lemma mean_ok : is_finite (st_mean ieee s) = true /\ Rabs (B2R (st_mean ieee s)) <= B /\ Rabs (B2R (st_mean ieee s) - rmean xs) <= (n + 1) * t1.
Proof.
  destruct R as [_ H]. destruct (H Wi L) as (G & _). unfold st_mean. rewrite num0. cbn [ndiv ieee of_int].
  destruct (quotient e 0 _ _ ltac:(lia) G) as (Q1 & Q2 & _ & Q3). split; [exact Q1|]. split; [exact Q2|].
  unfold rmean. rewrite xs_len. unfold n at 2. rewrite <- plus_IZR. rewrite Z.add_0_r in Q3. exact Q3.
Qed.
Lemma rmean_ok : Rabs (rmean xs) <= B.
Proof. apply rmean_bound; [apply xs_nil|apply Rlt_le, B_pos|apply xs_bound]. Qed.
Lemma sq_close : forall a b d, Rabs a <= B -> Rabs b <= B -> Rabs (a - b) <= d -> Rabs (a * a - b * b) <= d * (2 * B).
Proof.
  intros a b d Ha Hb D. replace (a * a - b * b) with ((a - b) * (a + b)) by ring. rewrite Rabs_mult.
  apply Rmult_le_compat; try apply Rabs_pos; [exact D|]. eapply Rle_trans; [apply Rabs_triang|]. lra.
Qed.
Lemma variance_ok : is_finite (st_variance ieee s) = true /\ B2R (st_variance ieee s) <= B2 /\
  Rabs (B2R (st_variance ieee s)) <= B2 /\ Rabs (B2R (st_variance ieee s) - rvar xs) <= (3 * n + 6) * t2.
Proof.
  destruct R as [_ H]. destruct (H Wi L) as (_ & G & P). destruct mean_ok as (M1 & M2 & M3). pose proof rmean_ok as M4.
  destruct (quotient (e + e) 1 _ _ ltac:(lia) G) as (Q1 & Q2 & Q4 & Q3). fold B2 t2 in Q2, Q3. fold xs in Q3.
  destruct (sq_spec _ M1 M2) as (S1 & S2 & S3 & S4).
  assert (V : st_variance ieee s = dsub (ddiv (sumsq s) (of_Z (number s))) (dmul (st_mean ieee s) (st_mean ieee s))).
  { unfold st_variance. now rewrite num0. }
  set (m := st_mean ieee s) in *. set (a := ddiv (sumsq s) (of_Z (number s))) in *. set (q := dmul m m) in *.
  assert (A0 : 0 <= B2R a). { rewrite Q4. apply rnd_nonneg. apply Rmult_le_pos; [exact P|]. apply Rlt_le, Rinv_0_lt_compat. pose proof n_pos'. lra. }
  assert (B0 : 0 <= B2R q). { rewrite S2. apply rnd_nonneg. nra. }
  assert (D : Rabs (B2R a - B2R q) <= B2). { apply Rabs_le. apply Rabs_le_inv in Q2, S4. split; lra. }
  destruct (dsub_spec a q (e + e) Q1 S1) as [E F]; [lia|exact D|]. rewrite <- V in E, F.
  assert (VB : Rabs (B2R (st_variance ieee s)) <= B2) by (rewrite E; apply rnd_abs_le; [lia|exact D]).
  split; [exact F|]. split; [eapply Rle_trans; [apply Rle_abs|exact VB]|]. split; [exact VB|].
  assert (Z1 : Rabs (rnd (B2R a - B2R q) - (B2R a - B2R q)) <= t2) by (apply rnd_err; [exact D|apply bpow_le; lia]).
  assert (Z2 : Rabs (B2R q - B2R m * B2R m) <= t2) by (rewrite S2; apply rnd_err; [exact S3|apply bpow_le; lia]).
  pose proof (sq_close _ _ _ M2 M4 M3) as Z3. replace ((n + 1) * t1 * (2 * B)) with ((2 * n + 2) * t2) in Z3 by (unfold t1, t2; rewrite B2_eq; ring).
  replace (IZR (zlen l + 1 + 1)) with (n + 2) in Q3 by (unfold n; rewrite !plus_IZR; ring).
  rewrite (rvar_alt xs xs_nil). rewrite xs_len. fold (rsumsq xs). rewrite E. set (r := rsumsq xs / n) in *. set (v := rnd (B2R a - B2R q)) in *.
  replace (v - (r - rmean xs * rmean xs)) with ((v - (B2R a - B2R q)) + ((B2R a - r) + (- (B2R q - B2R m * B2R m) - (B2R m * B2R m - rmean xs * rmean xs)))) by ring.
  eapply Rle_trans; [apply Rabs_triang|]. eapply Rle_trans; [apply Rplus_le_compat_l, Rabs_triang|].
  eapply Rle_trans; [apply Rplus_le_compat_l, Rplus_le_compat_l, Rabs_triang|]. rewrite !Rabs_Ropp. clear - Z1 Z2 Z3 Q3. lra.
Qed.
Lemma stddev_ok : is_finite (sd_stddev s) = true /\ 0 <= B2R (sd_stddev s) <= B /\ Rabs (B2R (sd_stddev s) * B2R (sd_stddev s) - rvar xs) <= (3 * n + 8) * t2.
Proof.
  destruct variance_ok as (V1 & V2 & _ & V3). unfold sd_stddev. set (v := st_variance ieee s) in *. cbv zeta. pose proof (rvar_nonneg xs) as P.
  destruct (of_Z_spec 0 ltac:(lia)) as [E0 F0]. rewrite rnd_0 in E0. pose proof t2_pos as T. pose proof B_pos as Bp.
  rewrite (Bleb_correct 53 1024 v (of_Z 0) V1 F0), E0. destruct (Rle_bool_spec (B2R v) 0) as [H|H].
  - split; [exact F0|]. rewrite E0. split; [lra|]. replace (0 * 0 - rvar xs) with (- rvar xs) by ring. rewrite Rabs_Ropp, (Rabs_pos_eq _ P).
    apply Rabs_le_inv in V3. lra.
  - pose proof (Bsqrt_correct 53 1024 prec_gt_0_53 prec_lt_emax_53 mode_NE v) as (S1 & S2 & _). fold (dsqrt v) in S1, S2.
    assert (Fs : is_finite (dsqrt v) = true).
    { rewrite S2. destruct v as [ | | |sg m ex hb]; try reflexivity; try discriminate V1. destruct sg; [|reflexivity].
      exfalso. clear - H. cbn in H. assert (X : F2R (Float radix2 (Zneg m) ex) < 0) by (now apply F2R_lt_0). unfold F2R in *. cbn in *. lra. }
    assert (S1' : B2R (dsqrt v) = rnd (sqrt (B2R v))) by exact S1.
    assert (SB : sqrt (B2R v) <= B). { rewrite <- (sqrt_square B) by lra. apply sqrt_le_1; [lra|nra|]. rewrite <- B2_eq. exact V2. }
    pose proof (sqrt_pos (B2R v)) as SP. assert (SA : Rabs (sqrt (B2R v)) <= B) by (rewrite Rabs_pos_eq; assumption).
    split; [exact Fs|]. rewrite S1'. set (q := sqrt (B2R v)) in *.
    assert (RA : Rabs (rnd q) <= B) by (apply rnd_abs_le; [lia|exact SA]).
    assert (RP : 0 <= rnd q) by (now apply rnd_nonneg). split; [split; [exact RP|now rewrite Rabs_pos_eq in RA by exact RP]|].
    assert (RE : Rabs (rnd q - q) <= t1) by (apply rnd_err; [exact SA|apply bpow_le; lia]).
    pose proof (sq_close _ _ _ RA SA RE) as C. replace (t1 * (2 * B)) with (2 * t2) in C by (unfold t1, t2; rewrite B2_eq; ring).
    assert (QQ : q * q = B2R v) by (apply sqrt_sqrt; lra). rewrite QQ in C.
    replace (rnd q * rnd q - rvar xs) with ((rnd q * rnd q - B2R v) + (B2R v - rvar xs)) by ring.
    eapply Rle_trans; [apply Rabs_triang|]. lra.
Qed.
Lemma c196_spec : is_finite c196 = true /\ Rabs (B2R c196 - 196 / 100) <= ulp1.
Proof.
  split; [vm_compute; reflexivity|].
  assert (E : B2R c196 = IZR 8827055269646172 / IZR (2 ^ 52)). { unfold c196. cbn. unfold F2R. cbn. lra. }
  rewrite E. unfold ulp1. cbn. apply Rabs_le. split; lra.
Qed.
Lemma sqrt_n : is_finite (dsqrt (of_Z (number s))) = true /\ 1 <= B2R (dsqrt (of_Z (number s))) /\ 1 <= sqrt n /\
  Rabs (B2R (dsqrt (of_Z (number s))) - sqrt n) <= ulp1 * sqrt n.
Proof.
  destruct num_d as [D1 D2]. pose proof n_pos' as P. set (v := of_Z (number s)) in *.
  pose proof (Bsqrt_correct 53 1024 prec_gt_0_53 prec_lt_emax_53 mode_NE v) as (S1 & S2 & _). fold (dsqrt v) in S1, S2.
  assert (Fs : is_finite (dsqrt v) = true).
  { rewrite S2. destruct v as [ | | |sg m ex hb]; try reflexivity; try discriminate D2. destruct sg; [|reflexivity].
    exfalso. clear - D1 P. cbn in D1. assert (X : F2R (Float radix2 (Zneg m) ex) < 0) by (now apply F2R_lt_0). unfold F2R in *. cbn in *. lra. }
  split; [exact Fs|]. assert (S1' : B2R (dsqrt v) = rnd (sqrt n)) by (rewrite <- D1; exact S1). rewrite S1'.
  assert (Q : 1 <= sqrt n). { rewrite <- sqrt_1. apply sqrt_le_1; lra. }
  split; [rewrite <- (rnd_Z 1) by lia; now apply rnd_le|]. split; [exact Q|].
  apply rnd_err; [rewrite Rabs_pos_eq; lra|]. apply Rle_trans with 1; [|exact Q]. change 1 with (bpow radix2 0). apply bpow_le. lia.
Qed.
Lemma conf95_ok : is_finite (sd_conf95 s) = true /\ 0 <= B2R (sd_conf95 s) <= 2 * B /\
  Rabs (B2R (sd_conf95 s) - 196 / 100 * B2R (sd_stddev s) / sqrt n) <= 7 * t1.
Proof.
  destruct stddev_ok as (F1 & [P1 L1] & _). destruct c196_spec as [F2 E2]. destruct sqrt_n as (F3 & Q1 & Q2 & E3).
  unfold sd_conf95. rewrite num0. set (d := sd_stddev s) in *. set (r := dsqrt (of_Z (number s))) in *. pose proof ulp1_small as U. pose proof ulp1_pos as U0. pose proof B_pos as Bp.
  assert (C : 0 <= B2R c196 <= 2) by (apply Rabs_le_inv in E2; lra).
  assert (BB : bpow radix2 (e + 1) = 2 * B). { rewrite bpow_plus. fold B. change (bpow radix2 1) with 2. ring. }
  assert (PD : 0 <= B2R c196 * B2R d <= 2 * B) by (split; [apply Rmult_le_pos; lra|apply Rmult_le_compat; lra]).
  destruct (dmul_spec c196 d (e + 1) F2 F1) as [E4 F4]; [lia|rewrite BB, Rabs_pos_eq; lra|]. set (p := dmul c196 d) in *.
  assert (X1 : Rabs (B2R p - B2R c196 * B2R d) <= 2 * t1).
  { rewrite E4. replace (2 * t1) with (ulp1 * (2 * B)) by (unfold t1; ring). apply rnd_err; [rewrite Rabs_pos_eq; lra|]. rewrite <- BB. apply bpow_le. lia. }
  assert (X2 : Rabs (B2R c196 * B2R d - 196 / 100 * B2R d) <= t1).
  { replace (B2R c196 * B2R d - 196 / 100 * B2R d) with ((B2R c196 - 196 / 100) * B2R d) by ring. rewrite Rabs_mult. unfold t1.
    apply Rmult_le_compat; try apply Rabs_pos; [exact E2|]. rewrite Rabs_pos_eq; assumption. }
  assert (Pp : 0 <= B2R p <= 2 * B).
  { rewrite E4. split; [apply rnd_nonneg; lra|]. rewrite <- BB. eapply Rle_trans; [apply Rle_abs|]. apply rnd_abs_le; [lia|]. rewrite BB, Rabs_pos_eq; lra. }
  assert (Y : 0 <= B2R p / B2R r <= 2 * B).
  { split; [apply Rmult_le_pos; [lra|apply Rlt_le, Rinv_0_lt_compat; lra]|]. apply Rmult_le_reg_r with (B2R r); [lra|]. unfold Rdiv. rewrite Rmult_assoc, Rinv_l by lra. nra. }
  destruct (ddiv_spec p r (e + 1) F4) as [E5 F5]; [lra|lia|rewrite BB, Rabs_pos_eq; lra|].
  split; [exact F5|]. rewrite E5. split.
  { split; [apply rnd_nonneg; lra|]. rewrite <- BB. eapply Rle_trans; [apply Rle_abs|]. apply rnd_abs_le; [lia|]. rewrite BB, Rabs_pos_eq; lra. }
  assert (X3 : Rabs (rnd (B2R p / B2R r) - B2R p / B2R r) <= 2 * t1).
  { replace (2 * t1) with (ulp1 * (2 * B)) by (unfold t1; ring). apply rnd_err; [rewrite Rabs_pos_eq; lra|]. rewrite <- BB. apply bpow_le. lia. }
  set (y := 196 / 100 * B2R d) in *. assert (Yb : 0 <= y <= 2 * B) by (unfold y; lra).
  assert (X4 : Rabs (B2R p / B2R r - y / B2R r) <= 3 * t1).
  { replace (B2R p / B2R r - y / B2R r) with ((B2R p - y) * / B2R r) by (field; lra). rewrite Rabs_mult, (Rabs_pos_eq (/ B2R r)) by (apply Rlt_le, Rinv_0_lt_compat; lra).
    replace (3 * t1) with (3 * t1 * 1) by ring. apply Rmult_le_compat; [apply Rabs_pos|apply Rlt_le, Rinv_0_lt_compat; lra| |].
    - replace (B2R p - y) with ((B2R p - B2R c196 * B2R d) + (B2R c196 * B2R d - y)) by ring. eapply Rle_trans; [apply Rabs_triang|]. lra.
    - rewrite <- Rinv_1. apply Rinv_le; lra. }
  assert (X5 : Rabs (y / B2R r - y / sqrt n) <= 2 * t1).
  { replace (y / B2R r - y / sqrt n) with (y * ((sqrt n - B2R r) / sqrt n * / B2R r)) by (field; lra).
    rewrite Rabs_mult, (Rabs_pos_eq y) by lra. replace (2 * t1) with (2 * B * (ulp1 * 1)) by (unfold t1; ring).
    apply Rmult_le_compat; [lra|apply Rabs_pos|lra|]. rewrite Rabs_mult, (Rabs_pos_eq (/ B2R r)) by (apply Rlt_le, Rinv_0_lt_compat; lra).
    apply Rmult_le_compat; [apply Rabs_pos|apply Rlt_le, Rinv_0_lt_compat; lra| |rewrite <- Rinv_1; apply Rinv_le; lra].
    unfold Rdiv. rewrite Rabs_mult, (Rabs_pos_eq (/ sqrt n)) by (apply Rlt_le, Rinv_0_lt_compat; lra).
    apply Rmult_le_reg_r with (sqrt n); [lra|]. rewrite Rmult_assoc, Rinv_l, Rmult_1_r by lra. rewrite Rabs_minus_sym. exact E3. }
  replace (rnd (B2R p / B2R r) - y / sqrt n) with ((rnd (B2R p / B2R r) - B2R p / B2R r) + ((B2R p / B2R r - y / B2R r) + (y / B2R r - y / sqrt n))) by ring.
  eapply Rle_trans; [apply Rabs_triang|]. eapply Rle_trans; [apply Rplus_le_compat_l, Rabs_triang|]. clear - X3 X4 X5. lra.
Qed.
End Run.

(** A single sample. *)
Lemma dadd_zero_l : forall a b : double, is_finite a = true -> B2R a = 0 -> is_finite b = true -> is_finite (dadd a b) = true /\ B2R (dadd a b) = B2R b.
Proof.
  intros a b Fa Ea Fb. pose proof (Bplus_correct 53 1024 prec_gt_0_53 prec_lt_emax_53 mode_NE a b Fa Fb) as P. fold (dadd a b) in P.
  rewrite Ea, Rplus_0_l in P. change (round radix2 fexp64 (round_mode mode_NE) (B2R b)) with (rnd (B2R b)) in P. rewrite rnd_B2R in P.
  rewrite Rlt_bool_true in P by apply abs_B2R_lt_emax. destruct P as (P1 & P2 & _). now split.
Qed.
Lemma dadd_zero_r : forall a b : double, is_finite a = true -> B2R b = 0 -> is_finite b = true -> is_finite (dadd a b) = true /\ B2R (dadd a b) = B2R a.
Proof.
  intros a b Fa Eb Fb. pose proof (Bplus_correct 53 1024 prec_gt_0_53 prec_lt_emax_53 mode_NE a b Fa Fb) as P. fold (dadd a b) in P.
  rewrite Eb, Rplus_0_r in P. change (round radix2 fexp64 (round_mode mode_NE) (B2R a)) with (rnd (B2R a)) in P. rewrite rnd_B2R in P.
  rewrite Rlt_bool_true in P by apply abs_B2R_lt_emax. destruct P as (P1 & P2 & _). now split.
Qed.
Definition Zero (a : double) : Prop := is_finite a = true /\ B2R a = 0.
Definition small (x : double) : Prop := is_finite x = true /\ Rabs (B2R x) <= bpow radix2 511.
Definition Rep1 (s : stats ieee) (l : list double) : Prop :=
  number s = (Z.of_nat (length l) mod 2 ^ 64)%Z /\
  (l = [] -> Zero (sum s) /\ Zero (sumsq s)) /\
  (forall x, l = [x] -> small x -> is_finite (sum s) = true /\ B2R (sum s) = B2R x /\ is_finite (sumsq s) = true /\ B2R (sumsq s) = rnd (B2R x * B2R x)).
Lemma small_sq : forall x, small x -> is_finite (dmul x x) = true /\ B2R (dmul x x) = rnd (B2R x * B2R x) /\ Rabs (B2R x * B2R x) <= bpow radix2 1022.
Proof.
  intros x [F H]. assert (Q : Rabs (B2R x * B2R x) <= bpow radix2 1022).
  { rewrite Rabs_mult. change 1022%Z with (511 + 511)%Z. rewrite bpow_plus. apply Rmult_le_compat; try apply Rabs_pos; exact H. }
  destruct (dmul_spec x x 1022 F F) as [E F']; [lia|exact Q|]. auto.
Qed.
Lemma rep1_new : Rep1 (st_new ieee) [].
Proof.
  split; [reflexivity|]. split; [|discriminate]. intros _. assert (Z0 : Zero (of_Z 0)) by (destruct (of_Z_spec 0 ltac:(lia)) as [E F]; rewrite rnd_0 in E; now split). now split.
Qed.
Lemma rep1_add : forall s l x, Rep1 s l -> Rep1 (st_add ieee s x) (l ++ [x]).
Proof.
  intros s l x (N & H0 & H1). split; [|split].
  - cbn [number st_add]. rewrite N, app_length. cbn [length]. rewrite Zplus_mod_idemp_l. f_equal. lia.
  - destruct l; discriminate.
  - intros y E Y. destruct l as [|a l]; [|destruct l; discriminate]. injection E as <-. destruct (H0 eq_refl) as [[A1 A2] [B1 B2]].
    destruct (small_sq x Y) as (S1 & S2 & _). destruct Y as [Y1 Y2]. cbn [sum sumsq st_add nadd nmul ieee].
    destruct (dadd_zero_l (sum s) x A1 A2 Y1) as [P1 P2]. destruct (dadd_zero_l (sumsq s) (dmul x x) B1 B2 S1) as [Q1 Q2].
    rewrite S2 in Q2. auto.
Qed.
Lemma rep1_merge : forall s t l k, Rep1 s l -> Rep1 t k -> Rep1 (st_merge ieee s t) (l ++ k).
Proof.
  intros s t l k (N & H0 & H1) (M & K0 & K1). split; [|split].
  - cbn [number st_merge]. rewrite N, M, app_length, Nat2Z.inj_add. now rewrite <- Zplus_mod.
  - intros E. apply app_eq_nil in E. destruct E as [E1 E2]. destruct (H0 E1) as [[A1 A2] [B1 B2]], (K0 E2) as [[C1 C2] [D1 D2]]. cbn [sum sumsq st_merge nadd ieee].
    destruct (dadd_zero_l _ _ A1 A2 C1) as [P1 P2]. destruct (dadd_zero_l _ _ B1 B2 D1) as [Q1 Q2]. rewrite C2 in P2. rewrite D2 in Q2. split; split; assumption.
  - intros x E S. cbn [sum sumsq st_merge nadd ieee]. apply app_eq_unit in E. destruct E as [[E1 E2]|[E1 E2]].
    + destruct (H0 E1) as [[A1 A2] [B1 B2]]. destruct (K1 x E2 S) as (C1 & C2 & D1 & D2).
      destruct (dadd_zero_l _ _ A1 A2 C1) as [P1 P2]. destruct (dadd_zero_l _ _ B1 B2 D1) as [Q1 Q2]. rewrite C2 in P2. rewrite D2 in Q2. auto.
    + destruct (K0 E2) as [[A1 A2] [B1 B2]]. destruct (H1 x E1 S) as (C1 & C2 & D1 & D2).
      destruct (dadd_zero_r _ _ C1 A2 A1) as [P1 P2]. destruct (dadd_zero_r _ _ D1 B2 B1) as [Q1 Q2]. rewrite C2 in P2. rewrite D2 in Q2. auto.
Qed.
Lemma run_rep1 : forall ops i, Rep1 (st_run ieee (fun x : double => x) ops i) (samples ops i).
Proof.
  intros ops. unfold st_run, samples.
  assert (G : forall (f : nat -> stats ieee) g, (forall i, Rep1 (f i) (g i)) ->
    forall i, Rep1 (fold_left (st_step ieee (fun x : double => x)) ops f i) (fold_left samples_step ops g i)).
  { induction ops as [|o ops IH]; intros f g H; [exact H|]. cbn [fold_left]. apply IH. intros k. destruct o as [i x|i j|i]; cbn [st_step samples_step]; unfold set_nth; destruct (Nat.eqb k i); auto.
    - now apply rep1_add.
    - now apply rep1_merge.
    - apply rep1_new. }
  apply G. intros i. apply rep1_new.
Qed.
Lemma fmt_div1 : forall x, rnd (rnd x / 1) = rnd x.
Proof. intros x. unfold Rdiv. rewrite Rinv_1, Rmult_1_r. apply rnd_id. apply generic_format_round; [apply FLT_exp_valid; reflexivity|apply valid_rnd_N]. Qed.
Lemma rep1_query : forall s x, Rep1 s [x] -> small x ->
  is_finite (st_mean ieee s) = true /\ B2R (st_mean ieee s) = B2R x /\ Zero (st_variance ieee s).
Proof.
  intros s x (N & _ & H) S. destruct (H x eq_refl S) as (A1 & A2 & B1 & B2). change (number s = 1%Z) in N.
  destruct (small_sq x S) as (S1 & S2 & S3). destruct S as [X1 X2].
  assert (O : is_finite (of_Z 1) = true /\ B2R (of_Z 1) = 1) by (destruct (of_Z_spec 1 ltac:(lia)) as [E F]; rewrite rnd_Z in E by lia; now split). destruct O as [O1 O2].
  assert (X3 : Rabs (B2R (sum s) / B2R (of_Z 1)) <= bpow radix2 511) by (rewrite A2, O2; unfold Rdiv; rewrite Rinv_1, Rmult_1_r; exact X2).
  assert (M : is_finite (st_mean ieee s) = true /\ B2R (st_mean ieee s) = B2R x).
  { unfold st_mean. rewrite N. cbn [Z.eqb ndiv ieee of_int]. destruct (ddiv_spec (sum s) (of_Z 1) 511 A1) as [E F]; [lra|lia|exact X3|].
    split; [exact F|]. rewrite E, A2, O2. unfold Rdiv. rewrite Rinv_1, Rmult_1_r. apply rnd_B2R. }
  destruct M as [M1 M2]. split; [exact M1|]. split; [exact M2|].
  assert (V : st_variance ieee s = dsub (ddiv (sumsq s) (of_Z 1)) (dmul (st_mean ieee s) (st_mean ieee s))) by (unfold st_variance; now rewrite N).
  assert (Q : small (st_mean ieee s)) by (split; [exact M1|rewrite M2; exact X2]). destruct (small_sq _ Q) as (Q1 & Q2 & _). rewrite M2 in Q2.
  assert (RB : Rabs (rnd (B2R x * B2R x)) <= bpow radix2 1022) by (apply rnd_abs_le; [lia|exact S3]).
  destruct (ddiv_spec (sumsq s) (of_Z 1) 1022 B1) as [E F]; [lra|lia|rewrite B2, O2; unfold Rdiv; rewrite Rinv_1, Rmult_1_r; exact RB|].
  rewrite B2, O2, fmt_div1 in E.
  assert (Z0 : B2R (ddiv (sumsq s) (of_Z 1)) - B2R (dmul (st_mean ieee s) (st_mean ieee s)) = 0) by (rewrite E, Q2; ring).
  destruct (dsub_spec _ _ 0 F Q1) as [E' F']; [lia|rewrite Z0, Rabs_R0; apply bpow_ge_0|].
  rewrite Z0, rnd_0 in E'. rewrite <- V in E', F'. now split.
Qed.
Lemma zero_stddev : forall s, Zero (st_variance ieee s) -> sd_stddev s = of_Z 0.
Proof.
  intros s [F E]. unfold sd_stddev. cbv zeta. destruct (of_Z_spec 0 ltac:(lia)) as [E0 F0]. rewrite rnd_0 in E0.
  rewrite (Bleb_correct 53 1024 _ (of_Z 0) F F0), E, E0, Rle_bool_true by lra. reflexivity.
Qed.
Lemma dsqrt_pos : forall z, (1 <= z <= 2 ^ 64)%Z -> is_finite (dsqrt (of_Z z)) = true /\ 1 <= B2R (dsqrt (of_Z z)).
Proof.
  intros z H. destruct (of_Z_spec z ltac:(lia)) as [D1 D2]. set (v := of_Z z) in *.
  assert (P : 1 <= B2R v). { rewrite D1, <- (rnd_Z 1) by lia. apply rnd_le. apply IZR_le. lia. }
  pose proof (Bsqrt_correct 53 1024 prec_gt_0_53 prec_lt_emax_53 mode_NE v) as (S1 & S2 & _). fold (dsqrt v) in S1, S2.
  assert (Fs : is_finite (dsqrt v) = true).
  { rewrite S2. destruct v as [ | | |sg m ex hb]; try reflexivity; try discriminate D2. destruct sg; [|reflexivity].
    exfalso. clear - P. cbn in P. assert (X : F2R (Float radix2 (Zneg m) ex) < 0) by (now apply F2R_lt_0). unfold F2R in *. cbn in *. lra. }
  split; [exact Fs|]. assert (S1' : B2R (dsqrt v) = rnd (sqrt (B2R v))) by exact S1. rewrite S1'.
  rewrite <- (rnd_Z 1) by lia. apply rnd_le. rewrite <- sqrt_1. apply sqrt_le_1; lra.
Qed.
Lemma zero_conf : forall s, (1 <= number s <= 2 ^ 64)%Z -> Zero (st_variance ieee s) -> Zero (sd_conf95 s).
Proof.
  intros s H Zv. unfold sd_conf95. replace (number s =? 0)%Z with false by lia. rewrite (zero_stddev s Zv).
  destruct (dsqrt_pos _ H) as [F1 P1]. destruct (of_Z_spec 0 ltac:(lia)) as [E0 F0]. rewrite rnd_0 in E0. destruct c196_spec as [F2 _].
  assert (Z1 : B2R c196 * B2R (of_Z 0) = 0) by (rewrite E0; ring).
  destruct (dmul_spec c196 (of_Z 0) 0 F2 F0) as [E3 F3]; [lia|rewrite Z1, Rabs_R0; apply bpow_ge_0|]. rewrite Z1, rnd_0 in E3.
  set (r := dsqrt (of_Z (number s))) in *. assert (Z2 : B2R (dmul c196 (of_Z 0)) / B2R r = 0) by (rewrite E3; unfold Rdiv; ring).
  destruct (ddiv_spec (dmul c196 (of_Z 0)) r 0 F3) as [E4 F4]; [lra|lia|rewrite Z2, Rabs_R0; apply bpow_ge_0|]. rewrite Z2, rnd_0 in E4. now split.
Qed.

(** Equal integer samples. *)
Lemma is_int_div : forall x z n, is_int x (z * n) -> (1 <= n <= 2 ^ 53)%Z -> (Z.abs z <= 2 ^ 53)%Z -> is_int (ddiv x (of_Z n)) z.
Proof.
  intros x z n [F E] Hn Hz. destruct (of_Z_spec n ltac:(lia)) as [D1 D2]. rewrite rnd_Z in D1 by lia.
  assert (P : 1 <= IZR n) by (apply IZR_le; lia).
  assert (Q : B2R x / B2R (of_Z n) = IZR z) by (rewrite E, D1, mult_IZR; field; lra).
  destruct (ddiv_spec x (of_Z n) 53 F) as [E1 F1]; [lra|lia|rewrite Q; now apply is_int_abs|]. rewrite Q, rnd_Z in E1 by exact Hz. now split.
Qed.
Lemma sum_repeat : forall z l, Forall (fun x => x = z) l -> zsum l = (z * Z.of_nat (length l))%Z /\ zsumsq l = (z * z * Z.of_nat (length l))%Z.
Proof.
  intros z l H. induction H as [|x l -> _ [I1 I2]]; [cbn; lia|]. cbn [length]. rewrite Nat2Z.inj_succ.
  change (zsum (z :: l)) with (z + zsum l)%Z. change (zsumsq (z :: l)) with (z * z + zsumsq l)%Z. lia.
Qed.
Lemma equal_ints : forall (s : stats ieee) z n, number s = n -> is_int (sum s) (z * n) -> is_int (sumsq s) (z * z * n) ->
  (1 <= n <= 2 ^ 53)%Z -> (z * z <= 2 ^ 53)%Z -> is_int (st_mean ieee s) z /\ Zero (st_variance ieee s).
Proof.
  intros s z n N S1 S2 Hn Hz. assert (Ha : (Z.abs z <= 2 ^ 53)%Z).
  { destruct (Z.le_gt_cases (Z.abs z) (2 ^ 53)) as [G|G]; [exact G|]. exfalso.
    assert (K : (2 ^ 53 * 2 ^ 53 <= Z.abs z * Z.abs z)%Z) by (apply Z.mul_le_mono_nonneg; lia). rewrite Z.abs_square in K. lia. }
  assert (M : is_int (st_mean ieee s) z). { unfold st_mean. rewrite N. replace (n =? 0)%Z with false by lia. now apply is_int_div. }
  split; [exact M|]. assert (V : st_variance ieee s = dsub (ddiv (sumsq s) (of_Z n)) (dmul (st_mean ieee s) (st_mean ieee s))).
  { unfold st_variance. rewrite N. now replace (n =? 0)%Z with false by lia. }
  destruct (is_int_div _ _ _ S2 Hn) as [F1 E1]; [lia|]. destruct (is_int_mul _ _ _ _ M M) as [F2 E2]; [lia|].
  assert (Z0 : B2R (ddiv (sumsq s) (of_Z n)) - B2R (dmul (st_mean ieee s) (st_mean ieee s)) = 0) by (rewrite E1, E2; ring).
  destruct (dsub_spec _ _ 0 F1 F2) as [E' F']; [lia|rewrite Z0, Rabs_R0; apply bpow_ge_0|]. rewrite Z0, rnd_0 in E'. rewrite <- V in E', F'. now split.
Qed.
Lemma run_number : forall X (val : X -> double) ops i, number (st_run ieee val ops i) = (Z.of_nat (length (samples ops i)) mod 2 ^ 64)%Z.
Proof.
  intros X val ops. unfold st_run, samples.
  assert (G : forall (f : nat -> stats ieee) (g : nat -> list X), (forall i, number (f i) = (Z.of_nat (length (g i)) mod 2 ^ 64)%Z) ->
    forall i, number (fold_left (st_step ieee val) ops f i) = (Z.of_nat (length (fold_left samples_step ops g i)) mod 2 ^ 64)%Z).
  { induction ops as [|o ops IH]; intros f g H; [exact H|]. cbn [fold_left]. apply IH. intros k.
    destruct o as [i x|i j|i]; cbn [st_step samples_step]; unfold set_nth; destruct (Nat.eqb k i); auto.
    - cbn [number st_add]. rewrite H, app_length. cbn [length]. rewrite Zplus_mod_idemp_l. f_equal. lia.
    - cbn [number st_merge]. rewrite !H, app_length, Nat2Z.inj_add. now rewrite <- Zplus_mod. }
  apply G. reflexivity.
Qed.

(** Resets. *)
Lemma rc_count : forall X (ops : list (op X)) i, rc_run ops i = ((1 + resets_called ops i) mod 2 ^ 32)%Z.
Proof.
  intros X ops i. unfold rc_run.
  assert (G : forall f : nat -> Z, (f i = f i mod 2 ^ 32)%Z -> fold_left rc_step ops f i = ((f i + resets_called ops i) mod 2 ^ 32)%Z).
  { induction ops as [|o ops IH]; intros f F; [cbn; now rewrite Z.add_0_r|]. cbn [fold_left].
    destruct o as [j x|j k|j]; cbn [rc_step]; [now rewrite IH|now rewrite IH|].
    unfold resets_called in *. cbn [filter]. unfold set_nth. rewrite IH; rewrite ?(Nat.eqb_sym j i); destruct (Nat.eqb_spec i j) as [<-|].
    - cbn [length]. unfold base_reset. rewrite Zplus_mod_idemp_l. f_equal. lia.
    - reflexivity.
    - unfold base_reset. now rewrite Zmod_mod.
    - exact F. }
  apply G. reflexivity.
Qed.

(** DBL_MAX is the largest double. *)
Lemma dbl_max_spec : is_finite dbl_max = true /\ forall x : double, is_finite x = true -> (B2R x <= B2R dbl_max)%R.
Proof.
  split; [vm_compute; reflexivity|]. intros x _. pose proof (abs_B2R_le_emax_minus_prec 53 1024 prec_gt_0_53 x) as H.
  apply Rle_trans with (1 := Rle_abs _). eapply Rle_trans; [exact H|].
  assert (V : (IZR (2 ^ 53 - 1) * bpow radix2 971 = bpow radix2 1024 - bpow radix2 971)%R).
  { change 1024%Z with (53 + 971)%Z. rewrite bpow_plus. change (bpow radix2 53) with (IZR (2 ^ 53)). rewrite minus_IZR. ring. }
  assert (E : B2R dbl_max = (IZR (2 ^ 53 - 1) * bpow radix2 971)%R).
  { pose proof (binary_normalize_correct 53 1024 prec_gt_0_53 prec_lt_emax_53 mode_NE (2 ^ 53 - 1) 971 false) as B. fold dbl_max in B. cbv zeta in B.
    change (F2R (Float radix2 (2 ^ 53 - 1) 971)) with (IZR (2 ^ 53 - 1) * bpow radix2 971)%R in B.
    change (round radix2 fexp64 (round_mode mode_NE) (IZR (2 ^ 53 - 1) * bpow radix2 971)) with (rnd (IZR (2 ^ 53 - 1) * bpow radix2 971)) in B.
    rewrite rnd_id in B by (apply fmt_F2R; lia). rewrite Rlt_bool_true in B; [now destruct B as (B1 & _)|].
    rewrite Rabs_pos_eq by (apply Rmult_le_pos; [apply IZR_le; lia|apply bpow_ge_0]). rewrite V. pose proof (bpow_gt_0 radix2 971). lra. }
  rewrite E, V. apply Rle_refl.
Qed.
