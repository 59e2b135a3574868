(** Proofs about the quantiles StatsQuantile prints. *)
From Coq Require Import List Arith ZArith QArith Reals NArith Lia Lra Bool Permutation Sorted ZifyBool ZifyNat ZifyN.
From Flocq Require Import Core BinarySingleNaN.
From Verif Require Import Common CommonFacts ListFacts Double64 Arith Double_Model Double_Proofs Clock_Proofs Quantile_Model Quantile_Spec Quantile_Facts Quantile_Merge Quantile_Bin Quantile_Collapse Quantile_Proofs Quantile_Query Quantile_Error Quantile_History Quantile_Eps Quantile_Props QD_Proofs QD_Props PrintQ_Model.
From Verif Require StatsDev_Spec StatsDev_Proofs.
Import ListNotations.
Local Open Scope Z_scope.

(** ** The comparison with one *)
Definition u : R := (/ 9007199254740992)%R.   (* 2^-53 *)
Lemma u_bpow : u = bpow radix2 (-53).
Proof. reflexivity. Qed.
Notation eps12 := (default_epsilon ieee).
Lemma eps12_spec : is_finite (eps12 : double) = true /\ (99 / 100000000000000 <= B2R (eps12 : double) <= 101 / 100000000000000)%R.
Proof.
  split; [vm_compute; reflexivity|]. destruct (of_Z_spec 1 ltac:(lia)) as [E1 F1]. destruct (of_Z_spec (10 ^ 12) ltac:(lia)) as [E2 F2].
  rewrite rnd_Z in E1 by lia. rewrite rnd_Z in E2 by lia.
  assert (Q : (1 / IZR (10 ^ 12) = / 1000000000000)%R) by (change (10 ^ 12) with 1000000000000; lra).
  destruct (ddiv_spec (of_Z 1) (of_Z (10 ^ 12)) (-39) F1) as [E F].
  { rewrite E2. apply IZR_neq. lia. } { lia. }
  { rewrite E1, E2, Q. rewrite Rabs_pos_eq by lra. change (bpow radix2 (-39)) with (/ IZR (2 ^ 39))%R. change (2 ^ 39) with 549755813888. lra. }
  change (B2R (ddiv (of_Z 1) (of_Z (10 ^ 12)))) with (B2R (eps12 : double)) in E. rewrite E1, E2, Q in E. pose proof (rnd_error (/ 1000000000000) (-39) ltac:(lia)) as R.
  rewrite Rabs_pos_eq in R by lra. change (bpow radix2 (-39)) with (/ IZR (2 ^ 39))%R in R. change (2 ^ 39) with 549755813888 in R. specialize (R ltac:(lra)).
  change (bpow radix2 (-39 - 53)) with (/ IZR (2 ^ 92))%R in R. change (2 ^ 92) with 4951760157141521099596496896 in R. rewrite <- E in R. apply Rabs_le_inv in R. lra.
Qed.
Lemma one_spec : B2R (of_Z 1) = 1%R /\ is_finite (of_Z 1) = true.
Proof. destruct (of_Z_spec 1 ltac:(lia)) as [E F]. rewrite rnd_Z in E by lia. auto. Qed.

Section Below.
Variable q : double.
Hypothesis Fq : is_finite q = true.
Hypothesis Bq : (/ 1099511627776 <= Rabs (B2R q) <= 2)%R.

Let relto : double := dmin ieee (iabs q) (iabs (of_Z 1)).
Let diff : double := iabs (dsub q (of_Z 1)).
Lemma relto_spec : is_finite relto = true /\ B2R relto = Rmin (Rabs (B2R q)) 1.
Proof.
  destruct one_spec as [E1 F1]. destruct (abs_R q Fq) as [Ea Fa]. destruct (abs_R _ F1) as [Eb Fb]. rewrite E1, Rabs_R1 in Eb.
  unfold relto, dmin. change (@nlt ieee (iabs (of_Z 1)) (iabs q)) with (Bltb (iabs (of_Z 1)) (iabs q)). rewrite lt_fin by assumption. rewrite Ea, Eb.
  destruct (Rlt_bool_spec 1 (Rabs (B2R q))); split; auto.
  - rewrite Eb. rewrite Rmin_right; lra.
  - rewrite Ea. rewrite Rmin_left; lra.
Qed.
Lemma diff_spec : is_finite diff = true /\ B2R diff = Rabs (rnd (B2R q - 1)).
Proof.
  destruct one_spec as [E1 F1]. destruct Bq as [_ B2]. apply Rabs_le_inv in B2.
  assert (B : (Rabs (B2R q - B2R (of_Z 1)) <= bpow radix2 2)%R) by (rewrite E1; change (bpow radix2 2) with 4%R; apply Rabs_le; lra).
  destruct (dsub_spec q (of_Z 1) 2 Fq F1 ltac:(lia) B) as [E F]. destruct (abs_R _ F) as [Ea Fa]. unfold diff. rewrite Ea, E, E1. auto.
Qed.
Let ratio : double := ddiv diff relto.
Lemma ratio_spec : is_finite ratio = true /\ B2R ratio = rnd (Rabs (rnd (B2R q - 1)) / Rmin (Rabs (B2R q)) 1).
Proof.
  destruct relto_spec as [Fr Er]. destruct diff_spec as [Fd Ed].
  assert (M : (/ 1099511627776 <= Rmin (Rabs (B2R q)) 1)%R) by (apply Rmin_glb; lra).
  assert (D : (Rabs (rnd (B2R q - 1)) <= 4)%R).
  { change 4%R with (bpow radix2 2). apply rnd_abs_le; [lia|]. change (bpow radix2 2) with 4%R. destruct Bq as [_ B2]. apply Rabs_le_inv in B2. apply Rabs_le. lra. }
  assert (B : (Rabs (B2R diff / B2R relto) <= bpow radix2 42)%R).
  { rewrite Ed, Er. unfold Rdiv. rewrite Rabs_mult, Rabs_Rabsolu. rewrite (Rabs_pos_eq (/ _)) by (left; apply Rinv_0_lt_compat; lra).
    change (bpow radix2 42) with 4398046511104%R. replace 4398046511104%R with (4 * / / 1099511627776)%R by (rewrite Rinv_inv; lra).
    apply Rmult_le_compat; [apply Rabs_pos|left; apply Rinv_0_lt_compat; lra|exact D|]. apply Rinv_le_contravar; [lra|exact M]. }
  destruct (ddiv_spec diff relto 42 Fd) as [E F]; [rewrite Er; lra|lia|exact B|]. unfold ratio. rewrite E, Ed, Er. auto.
Qed.
Lemma d_eq_one : d_eq ieee eps12 q (of_Z 1) = Rlt_bool (B2R ratio) (B2R (eps12 : double)).
Proof.
  unfold d_eq. change (@neq ieee (dmin ieee (dabs ieee q) (dabs ieee (of_Z 1))) (of_int 0)) with (Beqb relto (of_Z 0)).
  change (@nlt ieee (@ndiv ieee (dabs ieee (@nsub ieee q (of_Z 1))) (dmin ieee (dabs ieee q) (dabs ieee (of_Z 1)))) eps12) with (Bltb ratio eps12).
  destruct of_Z_0 as [E0 F0]. destruct relto_spec as [Fr Er]. rewrite eqb_fin by assumption. rewrite E0, Er.
  assert (M : (/ 1099511627776 <= Rmin (Rabs (B2R q)) 1)%R) by (apply Rmin_glb; lra). rewrite Req_bool_false by lra.
  apply lt_fin; [apply ratio_spec|apply eps12_spec].
Qed.
Lemma below_one_eq : below_one ieee q = Rlt_bool (B2R q) 1 && negb (Rlt_bool (B2R ratio) (B2R (eps12 : double))).
Proof.
  unfold below_one, d_lt. change (@nlt ieee q (of_int 1)) with (Bltb q (of_Z 1)). change (of_int 1 : ieee) with (of_Z 1). rewrite d_eq_one.
  destruct one_spec as [E1 F1]. rewrite lt_fin by assumption. now rewrite E1.
Qed.
(** well below one *)
Lemma below_yes : (B2R q <= 1 - 11 / 10000000000000)%R -> below_one ieee q = true.
Proof.
  intros H. rewrite below_one_eq. rewrite Rlt_bool_true by lra. cbn [andb]. rewrite Rlt_bool_false; [reflexivity|].
  set (c := (9900 * u)%R). assert (Fc : generic_format radix2 fexp64 c) by (unfold c; rewrite u_bpow; apply (fmt_F2R 9900 (-53)); lia).
  assert (C : (B2R (eps12 : double) <= c)%R) by (destruct eps12_spec as [_ E]; unfold c, u; lra).
  assert (M : (/ 1099511627776 <= Rmin (Rabs (B2R q)) 1 <= 1)%R) by (split; [apply Rmin_glb; lra|apply Rmin_r]).
  apply Rle_trans with c; [exact C|]. rewrite (proj2 ratio_spec). rewrite <- (rnd_id c Fc). apply rnd_le.
  assert (D : (c <= Rabs (rnd (B2R q - 1)))%R).
  { rewrite <- Rabs_Ropp. eapply Rle_trans; [|apply Rle_abs]. apply Ropp_le_cancel. rewrite Ropp_involutive. rewrite <- (rnd_id (- c)) by now apply generic_format_opp. apply rnd_le. unfold c, u. lra. }
  assert (0 < c)%R by (unfold c, u; lra). apply Rmult_le_reg_r with (Rmin (Rabs (B2R q)) 1); [lra|]. unfold Rdiv. rewrite Rmult_assoc, Rinv_l, Rmult_1_r by lra.
  eapply Rle_trans; [|exact D]. rewrite <- (Rmult_1_r c) at 2. apply Rmult_le_compat_l; lra.
Qed.
(** within rounding of one, or above *)
Lemma below_no : (1 - 8193 * u <= B2R q)%R -> below_one ieee q = false.
Proof.
  intros H. rewrite below_one_eq. destruct (Rlt_bool_spec (B2R q) 1) as [L|L]; [|reflexivity]. cbn [andb]. rewrite Rlt_bool_true; [reflexivity|].
  assert (P : (0 < B2R q)%R) by (unfold u in H; lra). assert (Eq : Rmin (Rabs (B2R q)) 1 = B2R q) by (rewrite Rabs_pos_eq by lra; rewrite Rmin_left; lra).
  set (c := (8193 * u)%R). assert (Fc : generic_format radix2 fexp64 c) by (unfold c; rewrite u_bpow; apply (fmt_F2R 8193 (-53)); lia).
  set (d := (8194 * u)%R). assert (Fd : generic_format radix2 fexp64 d) by (unfold d; rewrite u_bpow; apply (fmt_F2R 8194 (-53)); lia).
  apply Rle_lt_trans with d; [|destruct eps12_spec as [_ E]; unfold d, u; lra]. rewrite (proj2 ratio_spec), Eq. rewrite <- (rnd_id d Fd). apply rnd_le.
  assert (D : (Rabs (rnd (B2R q - 1)) <= c)%R).
  { apply Rabs_le. split.
    - rewrite <- (rnd_id (- c)) by now apply generic_format_opp. apply rnd_le. unfold c. lra.
    - apply Rle_trans with 0%R; [|unfold c, u; lra]. rewrite <- rnd_0. apply rnd_le. lra. }
  apply Rmult_le_reg_r with (B2R q); [exact P|]. unfold Rdiv. rewrite Rmult_assoc, Rinv_l, Rmult_1_r by lra. eapply Rle_trans; [exact D|]. unfold c, d, u in *. lra.
Qed.
End Below.

(** ** The arguments visited by the loops *)
Fixpoint steps (fuel : nat) (q step : double) : option (list double) :=
  match fuel with
  | O => None
  | S fuel => if below_one ieee q then option_map (cons q) (steps fuel (dadd q step) step) else Some []
  end.

Section Steps.
Variable N : Z.
Hypothesis HN : 1 <= N < 2 ^ 31.
Let step : double := ddiv (of_Z 1) (of_Z N).
Lemma N_real : (1 <= IZR N < 2147483648)%R.
Proof. split; [apply IZR_le|apply IZR_lt]; lia. Qed.
Lemma step_spec : is_finite step = true /\ (Rabs (B2R step - / IZR N) <= u / IZR N)%R /\ (0 < B2R step <= 1)%R /\ (2 <= N -> (B2R step <= / 2)%R).
Proof.
  pose proof N_real as NR. destruct one_spec as [E1 F1]. destruct (of_Z_spec N ltac:(lia)) as [En Fn]. rewrite rnd_Z in En by lia.
  assert (I : (0 < / IZR N <= 1)%R). { split; [apply Rinv_0_lt_compat; lra|]. rewrite <- Rinv_1. apply Rinv_le_contravar; lra. }
  assert (Q : (B2R (of_Z 1) / B2R (of_Z N) = / IZR N)%R) by (rewrite E1, En; unfold Rdiv; ring).
  destruct (ddiv_spec (of_Z 1) (of_Z N) 0 F1) as [E F]. { rewrite En. lra. } { lia. } { rewrite Q. rewrite Rabs_pos_eq by lra. change (bpow radix2 0) with 1%R. lra. }
  fold step in E, F. rewrite Q in E. split; [exact F|].
  assert (Er : (Rabs (B2R step - / IZR N) <= u / IZR N)%R).
  { rewrite E. replace (u / IZR N)%R with (StatsDev_Spec.ulp1 * / IZR N)%R by reflexivity. apply StatsDev_Proofs.rnd_err; [rewrite Rabs_pos_eq; lra|].
    apply Rle_trans with (bpow radix2 (-31)); [apply bpow_le; lia|]. change (bpow radix2 (-31)) with (/ 2147483648)%R. apply Rinv_le_contravar; lra. }
  split; [exact Er|]. split.
  - apply Rabs_le_inv in Er. unfold Rdiv in Er. split; [|rewrite E, <- (rnd_Z 1) by lia; apply rnd_le; lra]. assert (u * / IZR N < / IZR N)%R; [|lra].
    rewrite <- (Rmult_1_l (/ IZR N)) at 2. apply Rmult_lt_compat_r; [lra|unfold u; lra].
  - intros H2. rewrite E. change (/ 2)%R with (bpow radix2 (-1)). rewrite <- (rnd_id (bpow radix2 (-1))) by (apply fmt_bpow; lia). apply rnd_le. change (bpow radix2 (-1)) with (/ 2)%R. apply Rinv_le_contravar; [lra|]. apply IZR_le. exact H2.
Qed.
(** the [i]-th argument (from 0), up to rounding *)
Definition near (i : Z) (q : double) : Prop :=
  is_finite q = true /\ (Rabs (B2R q - IZR (i + 1) / IZR N) <= IZR (i + 1) * (u / IZR N) + IZR i * u)%R /\ (/ 4294967296 <= B2R q <= 2)%R.
Lemma inv_N : (/ 2147483648 < / IZR N <= 1)%R.
Proof. pose proof N_real as NR. split; [apply Rinv_lt_contravar; nra|]. rewrite <- Rinv_1. apply Rinv_le_contravar; lra. Qed.
Lemma near_err i q : 0 <= i -> i + 1 <= 2 * N -> near i q -> (Rabs (B2R q - IZR (i + 1) / IZR N) <= IZR (i + 2) * u)%R.
Proof.
  intros Hi H2 (_ & E & _). eapply Rle_trans; [exact E|]. pose proof N_real as NR. rewrite !plus_IZR.
  apply IZR_le in H2. rewrite mult_IZR, plus_IZR in H2.
  assert (K : ((IZR i + 1) * (u / IZR N) <= 2 * u)%R); [|lra].
  unfold Rdiv. replace ((IZR i + 1) * (u * / IZR N))%R with (u * ((IZR i + 1) * / IZR N))%R by ring. rewrite (Rmult_comm 2 u). apply Rmult_le_compat_l; [unfold u; lra|].
  apply Rmult_le_reg_r with (IZR N); [lra|]. rewrite Rmult_assoc, Rinv_l by lra. lra.
Qed.
Lemma near_err1 i q : 0 <= i -> i + 1 <= N -> near i q -> (Rabs (B2R q - IZR (i + 1) / IZR N) <= IZR (i + 1) * u)%R.
Proof.
  intros Hi H2 (_ & E & _). eapply Rle_trans; [exact E|]. pose proof N_real as NR. rewrite !plus_IZR.
  apply IZR_le in H2. rewrite plus_IZR in H2.
  assert (K : ((IZR i + 1) * (u / IZR N) <= 1 * u)%R); [|lra].
  unfold Rdiv. replace ((IZR i + 1) * (u * / IZR N))%R with (u * ((IZR i + 1) * / IZR N))%R by ring. rewrite (Rmult_comm 1 u). apply Rmult_le_compat_l; [unfold u; lra|].
  apply Rmult_le_reg_r with (IZR N); [lra|]. rewrite Rmult_assoc, Rinv_l by lra. lra.
Qed.
Lemma near_first : near 0 step.
Proof.
  destruct step_spec as (F & E & B & _). pose proof inv_N as I. split; [exact F|].
  assert (U : (u / IZR N <= u * 1)%R) by (unfold Rdiv; apply Rmult_le_compat_l; [unfold u; lra|lra]).
  split.
  - change (0 + 1) with 1. replace (1 / IZR N)%R with (/ IZR N)%R by (unfold Rdiv; ring). lra.
  - apply Rabs_le_inv in E. unfold u in *. lra.
Qed.
Lemma near_next i q : 0 <= i -> 2 <= N -> near i q -> (B2R q < 1)%R -> near (i + 1) (dadd q step) /\ (B2R q < B2R (dadd q step))%R.
Proof.
  intros Hi H2 (F & E & B) L. destruct step_spec as (Fs & Es & Bs & Bs2). specialize (Bs2 H2). pose proof inv_N as I.
  assert (U : (u * / IZR N <= u * 1)%R) by (apply Rmult_le_compat_l; [unfold u; lra|lra]).
  assert (S : (Rabs (B2R q + B2R step) <= bpow radix2 1)%R) by (change (bpow radix2 1) with 2%R; apply Rabs_le; lra).
  destruct (dadd_spec q step 1 F Fs ltac:(lia) S) as [Ea Fa].
  assert (Er : (Rabs (rnd (B2R q + B2R step) - (B2R q + B2R step)) <= u)%R).
  { rewrite u_bpow. apply (rnd_error_lt _ 1); [lia|]. change (bpow radix2 1) with 2%R. apply Rabs_lt. lra. }
  apply Rabs_le_inv in Er. apply Rabs_le_inv in Es. apply Rabs_le_inv in E. rewrite <- Ea in Er. unfold Rdiv in *.
  split; [|unfold u in *; lra].
  split; [exact Fa|]. split; [|unfold u in *; lra].
  rewrite !plus_IZR in *. unfold Rdiv in *. apply Rabs_le. lra.
Qed.
(** a loop that stops by [M] at the latest *)
Lemma steps_run M : 2 <= N -> (forall q, near M q -> below_one ieee q = false) -> forall m i q, 0 <= i -> i + Z.of_nat m = M -> near i q ->
  exists args, steps (S m) q step = Some args /\
    (forall j a, nth_error args j = Some a -> near (i + Z.of_nat j) a /\ below_one ieee a = true) /\
    (exists qf, near (i + Z.of_nat (length args)) qf /\ below_one ieee qf = false) /\
    StronglySorted (fun a b => B2R a < B2R b)%R args /\ Forall (fun a => B2R q <= B2R a)%R args.
Proof.
  intros H2 Stop. induction m as [|m IH]; intros i q Hi Hm Hq; cbn [steps].
  - assert (i = M) by lia. subst i. rewrite (Stop q Hq). exists []. split; [reflexivity|]. split; [intros [|j] a; discriminate|]. split; [|split; constructor].
    exists q. cbn [length]. rewrite Z.add_0_r. auto.
  - destruct (below_one ieee q) eqn:Bl.
    + assert (Lt : (B2R q < 1)%R).
      { destruct Hq as (F & _ & B). rewrite below_one_eq in Bl; [|exact F|rewrite Rabs_pos_eq; lra]. destruct (Rlt_bool_spec (B2R q) 1); [assumption|discriminate]. }
      destruct (near_next i q Hi H2 Hq Lt) as [Hn Gt].
      destruct (IH (i + 1) (dadd q step) ltac:(lia) ltac:(lia) Hn) as (args & E & Ha & (qf & Hf & Bf) & So & Lo).
      change (steps (S m) (dadd q step) step) with (if below_one ieee (dadd q step) then option_map (cons (dadd q step)) (steps m (dadd (dadd q step) step) step) else Some []) in E. rewrite E.
      exists (q :: args). split; [reflexivity|]. split; [|split; [|split]].
      * intros [|j] a Hj; cbn [nth_error] in Hj. { injection Hj as <-. rewrite Z.add_0_r. auto. }
        destruct (Ha j a Hj) as [H3 H4]. split; [|exact H4]. replace (i + Z.of_nat (S j)) with (i + 1 + Z.of_nat j) by lia. exact H3.
      * exists qf. split; [|exact Bf]. cbn [length]. replace (i + Z.of_nat (S (length args))) with (i + 1 + Z.of_nat (length args)) by lia. exact Hf.
      * constructor; [exact So|]. eapply Forall_impl; [|exact Lo]. intros a La. cbv beta in La |- *. lra.
      * constructor; [lra|]. eapply Forall_impl; [|exact Lo]. intros a La. cbv beta in La |- *. lra.
    + exists []. split; [reflexivity|]. split; [intros [|j] a; discriminate|]. split; [|split; constructor].
      exists q. cbn [length]. rewrite Z.add_0_r. auto.
Qed.
Lemma near_false i q : near i q -> below_one ieee q = false -> (1 - 11 / 10000000000000 < B2R q)%R.
Proof.
  intros (F & _ & B) Bl. destruct (Rle_lt_dec (B2R q) (1 - 11 / 10000000000000)) as [H|H]; [|exact H]. exfalso.
  rewrite below_yes in Bl; [discriminate|exact F|rewrite Rabs_pos_eq; lra|exact H].
Qed.
Lemma near_true i q : near i q -> below_one ieee q = true -> (B2R q < 1 - 8193 * u)%R.
Proof.
  intros (F & _ & B) Bl. destruct (Rlt_le_dec (B2R q) (1 - 8193 * u)) as [H|H]; [exact H|]. exfalso.
  rewrite below_no in Bl; [discriminate|exact F|rewrite Rabs_pos_eq; lra|exact H].
Qed.
Lemma frac_mul k : (IZR k / IZR N * IZR N = IZR k)%R.
Proof. pose proof N_real. field. lra. Qed.

(** up to 8192 ranges the count is right *)
Lemma steps_exact : N <= 8192 -> exists args, steps (Z.to_nat N) step step = Some args /\ Z.of_nat (length args) = N - 1 /\
  (forall j a, nth_error args j = Some a -> is_finite a = true /\ (Rabs (B2R a - IZR (Z.of_nat j + 1) / IZR N) <= IZR (Z.of_nat j + 1) * u)%R /\ (0 < B2R a < 1)%R) /\
  StronglySorted (fun a b => B2R a < B2R b)%R args.
Proof.
  intros H8. pose proof N_real as NR. assert (N8 : (IZR N <= 8192)%R) by (apply IZR_le; exact H8).
  assert (Stop : forall q, near (N - 1) q -> below_one ieee q = false).
  { intros q Hq. pose proof (near_err1 (N - 1) q ltac:(lia) ltac:(lia) Hq) as E. destruct Hq as (F & _ & B). replace (N - 1 + 1) with N in E by lia.
    apply Rabs_le_inv in E. unfold Rdiv in E. rewrite Rinv_r in E by lra. apply below_no; [exact F|rewrite Rabs_pos_eq; lra|]. unfold u in *. lra. }
  destruct (Z.eq_dec N 1) as [E1|N1].
  { assert (Z0 : near (N - 1) step) by (replace (N - 1) with 0 by lia; apply near_first). exists []. rewrite E1. change (Z.to_nat 1) with 1%nat. cbn [steps].
    rewrite (Stop step Z0). split; [reflexivity|]. split; [reflexivity|]. split; [intros [|j] a; discriminate|constructor]. }
  destruct (steps_run (N - 1) ltac:(lia) Stop (Z.to_nat (N - 1)) 0 step ltac:(lia) ltac:(lia) near_first) as (args & E & Ha & (qf & Hf & Bf) & So & Lo).
  replace (S (Z.to_nat (N - 1))) with (Z.to_nat N) in E by lia. exists args. split; [exact E|].
  assert (Lt : forall j a, nth_error args j = Some a -> Z.of_nat j + 1 < N).
  { intros j. induction j as [|j IH]; intros a Hj; [lia|].
    assert (exists b, nth_error args j = Some b) as [b Hb]. { destruct (nth_error args j) eqn:K; [eauto|]. apply nth_error_None in K. assert (nth_error args (S j) <> None) by congruence. apply nth_error_Some in H. lia. }
    specialize (IH b Hb). destruct (Ha (S j) a Hj) as [Hn Bl]. rewrite Z.add_0_l in Hn. destruct (Z.eq_dec (Z.of_nat (S j) + 1) N) as [Q|Q]; [|lia]. exfalso.
    rewrite (Stop a) in Bl; [discriminate|]. replace (N - 1) with (Z.of_nat (S j)) by lia. exact Hn. }
  assert (Len : Z.of_nat (length args) = N - 1).
  { destruct (Z.le_gt_cases (N - 1) (Z.of_nat (length args))) as [G|G].
    - assert (Z.of_nat (length args) <= N - 1); [|lia]. destruct (length args) as [|k] eqn:K; [lia|]. destruct (nth_error args k) as [a|] eqn:Q; [|apply nth_error_None in Q; lia]. specialize (Lt k a Q). lia.
    - exfalso. rewrite Z.add_0_l in Hf. pose proof (near_false _ _ Hf Bf) as L1. pose proof (near_err1 (Z.of_nat (length args)) qf ltac:(lia) ltac:(lia) Hf) as E2.
      set (k := Z.of_nat (length args) + 1) in *. assert (K : k <= N - 1) by lia. apply IZR_le in K. rewrite minus_IZR in K.
      assert (K2 : (IZR k / IZR N <= 1 - / IZR N)%R). { apply Rmult_le_reg_r with (IZR N); [lra|]. rewrite frac_mul, Rmult_minus_distr_r, Rinv_l by lra. lra. }
      assert (K3 : (/ 8192 <= / IZR N)%R) by (apply Rinv_le_contravar; lra).
      apply Rabs_le_inv in E2. unfold u in E2. lra. }
  split; [exact Len|]. split; [|exact So].
  intros j a Hj. specialize (Lt j a Hj). destruct (Ha j a Hj) as [Hn Bl]. rewrite Z.add_0_l in Hn. pose proof (near_true _ _ Hn Bl) as L1. pose proof (near_err1 (Z.of_nat j) a ltac:(lia) ltac:(lia) Hn) as E2.
  destruct Hn as (F & _ & B). split; [exact F|]. split; [exact E2|]. unfold u in L1. lra.
Qed.
(** for any number of ranges it is off by at most 1024 *)
Lemma steps_any : 2 <= N -> exists args, steps (S (Z.to_nat (N + 1024))) step step = Some args /\ N - 1 - 1024 <= Z.of_nat (length args) <= N + 1024 /\
  (forall j a, nth_error args j = Some a -> is_finite a = true /\ (Rabs (B2R a - IZR (Z.of_nat j + 1) / IZR N) <= / 4000000)%R /\ (0 < B2R a < 1)%R) /\
  StronglySorted (fun a b => B2R a < B2R b)%R args.
Proof.
  intros H2. pose proof N_real as NR. pose proof inv_N as I.
  assert (Big : (IZR N * ((IZR N + 2050) * u) <= 513)%R).
  { apply Rle_trans with (2147483648 * ((2147483648 + 2050) * u))%R; [|unfold u; lra].
    apply Rmult_le_compat; [lra|apply Rmult_le_pos; [lra|unfold u; lra]|lra|apply Rmult_le_compat_r; [unfold u; lra|lra]]. }
  assert (Small : ((IZR N + 2050) * u <= / 4000000)%R) by (unfold u; lra).
  assert (Gen : forall i q, 0 <= i <= N + 1024 -> near i q -> (Rabs (B2R q - IZR (i + 1) / IZR N) <= (IZR N + 2050) * u)%R).
  { intros i q Hi Hq. eapply Rle_trans; [apply Hq|]. destruct Hi as [Hi1 Hi2]. apply IZR_le in Hi1, Hi2. rewrite !plus_IZR in *.
    assert (K : ((IZR i + 1) * (u / IZR N) <= 1026 * u)%R).
    { unfold Rdiv. replace ((IZR i + 1) * (u * / IZR N))%R with (u * ((IZR i + 1) * / IZR N))%R by ring. rewrite (Rmult_comm 1026 u). apply Rmult_le_compat_l; [unfold u; lra|].
      apply Rmult_le_reg_r with (IZR N); [lra|]. rewrite Rmult_assoc, Rinv_l by lra. lra. }
    assert (IZR i * u <= (IZR N + 1024) * u)%R by (apply Rmult_le_compat_r; [unfold u; lra|lra]). lra. }
  assert (Frac : forall k (q : double) d, (Rabs (B2R q - IZR k / IZR N) <= (IZR N + 2050) * u)%R -> (IZR k - IZR N = d)%R -> (d - 513 <= IZR N * (B2R q - 1) <= d + 513)%R).
  { intros k q d E D. apply Rabs_le_inv in E. pose proof (frac_mul k) as Q. set (f := (IZR k / IZR N)%R) in *. subst d. set (w := ((IZR N + 2050) * u)%R) in *.
    assert (IZR N * - w <= IZR N * (B2R q - f))%R by (apply Rmult_le_compat_l; lra). assert (IZR N * (B2R q - f) <= IZR N * w)%R by (apply Rmult_le_compat_l; lra). lra. }
  assert (Stop : forall q, near (N + 1024) q -> below_one ieee q = false).
  { intros q Hq. pose proof (Gen (N + 1024) q ltac:(lia) Hq) as E. destruct (Frac (N + 1024 + 1) q 1025%R E ltac:(rewrite !plus_IZR; lra)) as [L _].
    destruct Hq as (F & _ & B). apply below_no; [exact F|rewrite Rabs_pos_eq; lra|]. assert (0 <= B2R q - 1)%R; [|unfold u; lra].
    apply Rmult_le_reg_l with (IZR N); [lra|]. lra. }
  destruct (steps_run (N + 1024) H2 Stop (Z.to_nat (N + 1024)) 0 step ltac:(lia) ltac:(lia) near_first) as (args & E & Ha & (qf & Hf & Bf) & So & Lo).
  exists args. split; [exact E|].
  assert (Len : Z.of_nat (length args) <= N + 1024).
  { destruct (Z.le_gt_cases (Z.of_nat (length args)) (N + 1024)) as [G|G]; [exact G|]. exfalso.
    destruct (nth_error args (Z.to_nat (N + 1024))) as [a|] eqn:Q; [|apply nth_error_None in Q; lia]. destruct (Ha _ a Q) as [Hn Bl].
    replace (0 + Z.of_nat (Z.to_nat (N + 1024))) with (N + 1024) in Hn by lia. rewrite (Stop a Hn) in Bl. discriminate. }
  split; [split; [|exact Len]|].
  - rewrite Z.add_0_l in Hf. pose proof (near_false _ _ Hf Bf) as L1. pose proof (Gen (Z.of_nat (length args)) qf ltac:(lia) Hf) as E2.
    destruct (Frac (Z.of_nat (length args) + 1) qf _ E2 eq_refl) as [_ U]. rewrite plus_IZR in U.
    assert (IZR N * - (11 / 10000000000000) <= IZR N * (B2R qf - 1))%R by (apply Rmult_le_compat_l; lra).
    assert (IZR (N - 1 - 1024) <= IZR (Z.of_nat (length args)))%R; [|now apply le_IZR]. rewrite !minus_IZR. lra.
  - split; [|exact So]. intros j a Hj. assert (Lj : Z.of_nat j < Z.of_nat (length args)) by (apply Nat2Z.inj_lt; apply nth_error_Some; congruence).
    destruct (Ha j a Hj) as [Hn Bl]. rewrite Z.add_0_l in Hn. pose proof (near_true _ _ Hn Bl) as L1. pose proof (Gen (Z.of_nat j) a ltac:(lia) Hn) as E2.
    destruct Hn as (F & _ & B). split; [exact F|]. split; [eapply Rle_trans; [exact E2|exact Small]|]. unfold u in L1. lra.
Qed.
End Steps.

(** ** The tails *)
Fixpoint tails (fuel : nat) (limit : Z) (nentries tail_frac : double) : option (list double) :=
  match fuel with
  | O => None
  | S fuel =>
    if Bleb (of_Z limit) (dmul tail_frac nentries) then
      option_map (fun l => dsub (of_Z 1) tail_frac :: dsub (of_Z 1) (ddiv tail_frac (of_Z 2)) :: l)
                 (tails fuel limit nentries (ddiv (ddiv tail_frac (of_Z 2)) (of_Z 5)))
    else Some []
  end.
Fixpoint tl_frac (j : nat) : double := match j with O => tenth ieee | S j => ddiv (ddiv (tl_frac j) (of_Z 2)) (of_Z 5) end.
Definition p10 (j : nat) : Z := 10 ^ Z.of_nat j.
Definition pair_of (j : nat) : list double := [quotient (p10 j - 1) (p10 j); quotient (2 * p10 j - 1) (2 * p10 j)].
Definition check (j : nat) : bool :=
  let t := tl_frac j in let a := dsub (of_Z 1) t in let b := dsub (of_Z 1) (ddiv t (of_Z 2)) in let p := p10 (S j) in
  is_finite t && Bleb (of_Z 0) t && Bleb t (of_Z 1) && Bltb (of_Z 0) a && Bltb (of_Z 0) b && is_finite a && is_finite b
  && Beqb a (quotient (p - 1) p) && Beqb b (quotient (2 * p - 1) (2 * p))
  && Bleb (of_Z 1) (dmul t (of_Z p)) && negb (Bleb (of_Z 1) (dmul t (of_Z (p - 1))))
  && Bleb (of_Z 10) (dmul t (of_Z (10 * p))) && negb (Bleb (of_Z 10) (dmul t (of_Z (10 * p - 1)))).
Lemma checks : forallb check (seq 0 14) = true.
Proof. vm_compute. reflexivity. Qed.
Lemma beqb_eq (a b : double) : is_finite a = true -> Bltb (of_Z 0) a = true -> Beqb a b = true -> a = b.
Proof.
  intros F L E. destruct (is_finite b) eqn:Fb.
  - rewrite eqb_fin in E by assumption. destruct (Req_bool_spec (B2R a) (B2R b)) as [Q|]; [|discriminate]. destruct of_Z_0 as [E0 F0]. rewrite lt_fin in L by assumption.
    destruct (Rlt_bool_spec (B2R (of_Z 0)) (B2R a)) as [L'|]; [|discriminate]. apply finite_nonzero_eq; auto. lra.
  - exfalso. destruct b as [s|s| |s m e B]; try discriminate; destruct a as [s'|s'| |s' m e B]; try discriminate; destruct s; discriminate.
Qed.
Lemma leb_fin (a b : double) : is_finite a = true -> is_finite b = true -> Bleb a b = Rle_bool (B2R a) (B2R b).
Proof. intros. now apply Bleb_correct. Qed.
Lemma mul_mono (t : double) n m : is_finite t = true -> (0 <= B2R t <= 1)%R -> 0 <= n <= m -> m <= 2 ^ 50 ->
  is_finite (dmul t (of_Z n)) = true /\ is_finite (dmul t (of_Z m)) = true /\ (B2R (dmul t (of_Z n)) <= B2R (dmul t (of_Z m)))%R.
Proof.
  intros F B H Hm.
  assert (G : forall k, 0 <= k <= 2 ^ 50 -> B2R (dmul t (of_Z k)) = rnd (B2R t * IZR k) /\ is_finite (dmul t (of_Z k)) = true).
  { intros k Hk. destruct (of_Z_spec k ltac:(lia)) as [Ek Fk]. rewrite rnd_Z in Ek by lia. rewrite <- Ek. apply (dmul_spec t (of_Z k) 50); auto; [lia|]. rewrite Ek.
    destruct Hk as [K1 K2]. apply IZR_le in K1, K2. change (bpow radix2 50) with (IZR (2 ^ 50)). rewrite Rabs_pos_eq by (apply Rmult_le_pos; lra).
    apply Rle_trans with (1 * IZR k)%R; [apply Rmult_le_compat_r; lra|lra]. }
  destruct (G n ltac:(lia)) as [En Fn]. destruct (G m ltac:(lia)) as [Em Fm]. split; auto. split; auto. rewrite En, Em. apply rnd_le. apply Rmult_le_compat_l; [lra|]. apply IZR_le. lia.
Qed.
Lemma tail_facts j limit n : (j <= 13)%nat -> limit = 1 \/ limit = 10 -> 1 <= n < 10 ^ 14 ->
  [dsub (of_Z 1) (tl_frac j); dsub (of_Z 1) (ddiv (tl_frac j) (of_Z 2))] = pair_of (S j) /\
  Bleb (of_Z limit) (dmul (tl_frac j) (of_Z n)) = (limit * p10 (S j) <=? n).
Proof.
  intros Hj Hl Hn. pose proof checks as K. rewrite forallb_forall in K. specialize (K j ltac:(apply in_seq; lia)). unfold check in K. cbv zeta in K.
  rewrite !andb_true_iff, !negb_true_iff in K. destruct K as ((((((((((((K1 & K2) & K3) & K4) & K5) & K6) & K7) & K8) & K9) & K10) & K11) & K12) & K13).
  split.
  - unfold pair_of. rewrite <- (beqb_eq _ _ K6 K4 K8), <- (beqb_eq _ _ K7 K5 K9). reflexivity.
  - assert (B : (0 <= B2R (tl_frac j) <= 1)%R).
    { destruct of_Z_0 as [E0 F0]. destruct one_spec as [E1 F1]. rewrite leb_fin in K2, K3 by assumption. rewrite E0 in K2. rewrite E1 in K3.
      destruct (Rle_bool_spec 0 (B2R (tl_frac j))); [|discriminate]. destruct (Rle_bool_spec (B2R (tl_frac j)) 1); [auto|discriminate]. }
    assert (P : 10 <= p10 (S j) <= 10 ^ 14) by (unfold p10; split; [apply (Z.pow_le_mono_r 10 1); lia|apply Z.pow_le_mono_r; lia]).
    assert (Y : Bleb (of_Z limit) (dmul (tl_frac j) (of_Z (limit * p10 (S j)))) = true /\ Bleb (of_Z limit) (dmul (tl_frac j) (of_Z (limit * p10 (S j) - 1))) = false).
    { destruct Hl as [-> | ->]; [rewrite Z.mul_1_l; auto|auto]. }
    destruct Y as [Y1 Y2]. set (p := limit * p10 (S j)) in *. assert (P2 : 10 <= p <= 10 ^ 15) by (unfold p; nia).
    destruct (of_Z_spec limit ltac:(lia)) as [_ Fl].
    destruct (Z.leb_spec p n) as [L|L].
    + destruct (mul_mono (tl_frac j) p n K1 B ltac:(lia) ltac:(lia)) as (F1 & F2 & M). rewrite leb_fin in * by assumption.
      destruct (Rle_bool_spec (B2R (of_Z limit)) (B2R (dmul (tl_frac j) (of_Z p)))) as [Q|]; [|discriminate]. apply Rle_bool_true. lra.
    + destruct (mul_mono (tl_frac j) n (p - 1) K1 B ltac:(lia) ltac:(lia)) as (F1 & F2 & M). rewrite leb_fin in * by assumption.
      destruct (Rle_bool_spec (B2R (of_Z limit)) (B2R (dmul (tl_frac j) (of_Z (p - 1))))) as [|Q]; [discriminate|]. apply Rle_bool_false. lra.
Qed.
Definition reached (limit n : Z) (j : nat) : bool := limit * p10 j <=? n.
Lemma reached_mono limit n i j : 0 < limit -> (i <= j)%nat -> reached limit n i = false -> reached limit n j = false.
Proof. intros L H. unfold reached, p10. rewrite !Z.leb_gt. assert (10 ^ Z.of_nat i <= 10 ^ Z.of_nat j) by (apply Z.pow_le_mono_r; lia). nia. Qed.
Lemma filter_none limit n : 0 < limit -> forall m i, reached limit n i = false -> filter (reached limit n) (seq i m) = [].
Proof.
  intros L. induction m as [|m IH]; intros i H; [reflexivity|]. cbn [seq filter]. rewrite H. apply IH. apply (reached_mono limit n i (S i)); [exact L|lia|exact H].
Qed.
Lemma tails_spec limit n : limit = 1 \/ limit = 10 -> 1 <= n < 10 ^ 14 -> forall m j, (j + m = 13)%nat -> forall fuel, (m < fuel)%nat ->
  tails fuel limit (of_Z n) (tl_frac j) = Some (flat_map pair_of (seq (S j) (length (filter (reached limit n) (seq (S j) (S m)))))).
Proof.
  intros Hl Hn. assert (L0 : 0 < limit) by lia. induction m as [|m IH]; intros j Hj [|fuel] Hf; try lia; cbn [tails]; destruct (tail_facts j limit n ltac:(lia) Hl Hn) as [E1 E2]; rewrite E2; fold (reached limit n (S j)).
  - assert (R : reached limit n (S j) = false). { unfold reached. apply Z.leb_gt. assert (10 ^ 14 <= p10 (S j)) by (unfold p10; apply Z.pow_le_mono_r; lia). nia. }
    cbn [seq filter]. rewrite R. reflexivity.
  - destruct (reached limit n (S j)) eqn:R.
    + change (ddiv (ddiv (tl_frac j) (of_Z 2)) (of_Z 5)) with (tl_frac (S j)). rewrite (IH (S j) ltac:(lia) fuel ltac:(lia)).
      change (seq (S j) (S (S m))) with (S j :: seq (S (S j)) (S m)). cbn [filter]. rewrite R. cbn [length option_map].
      set (k := length (filter (reached limit n) (seq (S (S j)) (S m)))). change (seq (S j) (S k)) with (S j :: seq (S (S j)) k). cbn [flat_map]. rewrite <- E1. reflexivity.
    + rewrite (filter_none limit n L0 (S (S m)) (S j) R). reflexivity.
Qed.

Lemma some_inj {T} (x y : T) : Some x = Some y -> x = y.
Proof. congruence. Qed.

(** ** The loops run on an object *)
Section Runs.
Variable F : fulls.
Variable X : list Z.
Variable E : nat.
Variable B : Z.
Variable SM : list Z.
Hypothesis NX : X <> [].
Hypothesis Sc : Z.of_nat (length X) < 10 ^ 14.
Hypothesis HB : Z.of_nat (length X) <= B.
Let n := Z.of_nat (length X).
Definition J (s : quantile) : Prop :=
  exists P, Inv s F P X E /\ RepF s F P /\ q_count s = n /\ q_nbound s = B /\ isort (massL (blist (nbuffers s) F P)) = SM.
Definition answers (r : row ieee) : Prop := exists v, r_val r = Some v /\ nth_error SM (Z.to_nat (drank n (r_arg r) - 1)) = Some v.
Lemma J_query s q : J s -> in_unit q -> exists v s', getQuantile (A := ieee) s q false = Ok (Some v, s') /\ J s' /\ nth_error SM (Z.to_nat (drank n q - 1)) = Some v.
Proof.
  intros (P & I & R & C & Q & H) [Fq Hq]. destruct (query_ieee s F P X E q false I C ltac:(rewrite C; exact Sc) NX Fq Hq) as (v & s' & E1 & I' & (S1 & S2 & S3 & S4 & S5) & _ & R' & V).
  { right. rewrite C, Q. exact HB. }
  exists v, s'. split; [exact E1|]. rewrite C, H in V. split; [|exact V]. exists (isort P). split; [exact I'|]. split; [exact R'|]. split; [congruence|]. split; [congruence|]. rewrite S1, <- H.
  apply isort_unique; [|apply isort_sorted]. etransitivity; [|symmetry; apply isort_perm]. rewrite !blist_mass. apply Permutation_app_head, isort_perm.
Qed.
Lemma text_rows fuel : forall s nq q step args, J s -> steps fuel q step = Some args -> Forall in_unit args ->
  exists rows s', text_ranges_loop ieee fuel s nq q step = Ok (rows, s') /\ J s' /\ map r_arg rows = args /\ Forall answers rows /\
    (forall i r, nth_error rows i = Some r -> r_label r = if (nq + Z.of_nat i) mod 10 =? 0 then Some (dmul (r_arg r) (of_Z 100)) else None).
Proof.
  induction fuel as [|fuel IH]; intros s nq q step args Js E1 U; [discriminate|]. cbn [steps] in E1. cbn [text_ranges_loop]. destruct (below_one ieee q) eqn:Bl.
  - destruct (steps fuel (dadd q step) step) as [args'|] eqn:E2; [|discriminate]. cbn [option_map] in E1. injection E1 as <-. inversion U as [|? ? U1 U2]; subst.
    destruct (J_query s q Js U1) as (v & s1 & Q1 & Js1 & V). rewrite Q1. cbn [bind].
    destruct (IH s1 (nq + 1) (dadd q step) step args' Js1 E2 U2) as (rows & s' & R1 & Js' & R2 & R3 & R4). cbn [nadd ieee]. rewrite R1. cbn [bind].
    eexists (mk_row _ _ _ :: rows), s'. split; [reflexivity|]. split; [exact Js'|]. split; [cbn [map r_arg]; now rewrite R2|]. split; [constructor; [exists v; auto|exact R3]|].
    intros [|i] r Hr; cbn [nth_error] in Hr.
    + injection Hr as <-. rewrite Z.add_0_r. reflexivity.
    + rewrite (R4 i r Hr). replace (nq + 1 + Z.of_nat i) with (nq + Z.of_nat (S i)) by lia. reflexivity.
  - injection E1 as <-. exists [], s. split; [reflexivity|]. split; [exact Js|]. split; [reflexivity|]. split; [constructor|]. intros [|i] r; discriminate.
Qed.
Lemma rome_rows fuel : forall s q step args, J s -> steps fuel q step = Some args -> Forall in_unit args ->
  exists rows s', rome_ranges_loop ieee fuel s q step = Ok (rows, s') /\ J s' /\ map r_arg rows = args /\ Forall answers rows /\
    (forall i r, nth_error rows i = Some r -> r_label r = Some (dmul (r_arg r) (of_Z 100))).
Proof.
  induction fuel as [|fuel IH]; intros s q step args Js E1 U; [discriminate|]. cbn [steps] in E1. cbn [rome_ranges_loop]. destruct (below_one ieee q) eqn:Bl.
  - destruct (steps fuel (dadd q step) step) as [args'|] eqn:E2; [|discriminate]. cbn [option_map] in E1. injection E1 as <-. inversion U as [|? ? U1 U2]; subst.
    destruct (J_query s q Js U1) as (v & s1 & Q1 & Js1 & V). rewrite Q1. cbn [bind].
    destruct (IH s1 (dadd q step) step args' Js1 E2 U2) as (rows & s' & R1 & Js' & R2 & R3 & R4). cbn [nadd ieee]. rewrite R1. cbn [bind].
    eexists (mk_row _ _ _ :: rows), s'. split; [reflexivity|]. split; [exact Js'|]. split; [cbn [map r_arg]; now rewrite R2|]. split; [constructor; [exists v; auto|exact R3]|].
    intros [|i] r Hr; cbn [nth_error] in Hr; [injection Hr as <-; reflexivity|exact (R4 i r Hr)].
  - injection E1 as <-. exists [], s. split; [reflexivity|]. split; [exact Js|]. split; [reflexivity|]. split; [constructor|]. intros [|i] r; discriminate.
Qed.
Lemma tail_rows limit fuel : forall s t args, J s -> tails fuel limit (of_Z n) t = Some args -> Forall in_unit args ->
  exists rows s', tail_loop ieee fuel s limit (of_Z n) t = Ok (rows, s') /\ J s' /\ map r_arg rows = args /\ Forall answers rows /\
    (forall i r, nth_error rows i = Some r -> r_label r = Some (dmul (of_Z 100) (r_arg r))).
Proof.
  induction fuel as [|fuel IH]; intros s t args Js E1 U; [discriminate|]. cbn [tails] in E1. cbn [tail_loop]. cbn [nle of_int nmul nsub ndiv ieee].
  destruct (Bleb (of_Z limit) (dmul t (of_Z n))).
  - destruct (tails fuel limit (of_Z n) (ddiv (ddiv t (of_Z 2)) (of_Z 5))) as [args'|] eqn:E2; [|discriminate]. cbn [option_map] in E1. apply some_inj in E1. subst args.
    pose proof (Forall_inv U) as U1. pose proof (Forall_inv (Forall_inv_tail U)) as U3. pose proof (Forall_inv_tail (Forall_inv_tail U)) as U4.
    destruct (J_query s _ Js U1) as (v & s1 & Q1 & Js1 & V). rewrite Q1. cbn [bind].
    destruct (J_query s1 _ Js1 U3) as (v2 & s2 & Q2 & Js2 & V2). rewrite Q2. cbn [bind].
    destruct (IH s2 _ args' Js2 E2 U4) as (rows & s' & R1 & Js' & R2 & R3 & R4). rewrite R1. cbn [bind].
    eexists (mk_row _ _ _ :: mk_row _ _ _ :: rows), s'. split; [reflexivity|]. split; [exact Js'|]. split; [cbn [map r_arg]; now rewrite R2|].
    split; [constructor; [exists v; auto|constructor; [exists v2; auto|exact R3]]|].
    intros [|[|i]] r Hr; cbn [nth_error] in Hr; [injection Hr as <-; reflexivity|injection Hr as <-; reflexivity|exact (R4 i r Hr)].
  - injection E1 as <-. exists [], s. split; [reflexivity|]. split; [exact Js|]. split; [reflexivity|]. split; [constructor|]. intros [|i] r; discriminate.
Qed.
End Runs.
(** ranks grow with the argument *)
Lemma drank_mono n a b : 1 <= n < 10 ^ 14 -> in_unit a -> in_unit b -> (B2R a <= B2R b)%R -> drank n a <= drank n b.
Proof.
  intros Hn [Fa Ha] [Fb Hb] L. destruct (y_spec a Fa Ha) as (_ & Ya & _). destruct (y_spec b Fb Hb) as (_ & Yb & _).
  destruct (x_spec n Hn a Fa Ha) as (_ & Xa & _). destruct (x_spec n Hn b Fb Hb) as (_ & Xb & _). destruct (n_spec n Hn) as (_ & _ & Rn).
  unfold drank. assert (Zceil (B2R (dmul (of_Z n) (dsub a e15))) <= Zceil (B2R (dmul (of_Z n) (dsub b e15)))); [|lia].
  apply Zceil_le. rewrite Xa, Xb. apply rnd_le. apply Rmult_le_compat_l; [lra|]. rewrite Ya, Yb. apply rnd_le. lra.
Qed.

