(** getQuantile in IEEE doubles: the rank it asks for. *)
From Coq Require Import List Arith ZArith QArith Qround Qreals Reals NArith Lia Lra Bool Permutation Sorted ZifyBool ZifyNat ZifyN.
From Flocq Require Import Core BinarySingleNaN.
From Verif Require Import Common CommonFacts ListFacts Double64 Arith Double_Proofs Clock_Proofs Quantile_Model Quantile_Spec Quantile_Facts Quantile_Merge Quantile_Bin Quantile_Collapse Quantile_Proofs Quantile_Query Quantile_Error Quantile_History.
Import ListNotations.
Local Open Scope Z_scope.

Definition e15 : double := ddiv (of_Z 1) (of_Z (10 ^ 15)).
Lemma e15_spec : is_finite e15 = true /\ (9 / 10000000000000000 <= B2R e15 <= 11 / 10000000000000000)%R.
Proof.
  split; [vm_compute; reflexivity|]. destruct (of_Z_spec 1 ltac:(lia)) as [E1 F1]. destruct (of_Z_spec (10 ^ 15) ltac:(lia)) as [E2 F2].
  rewrite rnd_Z in E1 by lia. rewrite rnd_Z in E2 by lia.
  assert (Q : (1 / IZR (10 ^ 15) = / 1000000000000000)%R) by (change (10 ^ 15) with 1000000000000000; lra).
  destruct (ddiv_spec (of_Z 1) (of_Z (10 ^ 15)) (-49) F1) as [E F].
  { rewrite E2. apply IZR_neq. lia. } { lia. }
  { rewrite E1, E2, Q. rewrite Rabs_pos_eq by lra. change (bpow radix2 (-49)) with (/ IZR (2 ^ 49))%R. change (2 ^ 49) with 562949953421312. lra. }
  fold e15 in E. rewrite E1, E2, Q in E. pose proof (rnd_error (/ 1000000000000000) (-49) ltac:(lia)) as R.
  rewrite Rabs_pos_eq in R by lra. change (bpow radix2 (-49)) with (/ IZR (2 ^ 49))%R in R. change (2 ^ 49) with 562949953421312 in R. specialize (R ltac:(lra)).
  change (bpow radix2 (-49 - 53)) with (/ IZR (2 ^ 102))%R in R. change (2 ^ 102) with 5070602400912917605986812821504 in R. rewrite <- E in R. apply Rabs_le_inv in R. lra.
Qed.

Lemma btrunc_Z (x : double) : Btrunc x = Ztrunc (B2R x).
Proof.
  pose proof (Btrunc_correct 53 1024 prec_lt_emax_53 x) as B. apply eq_IZR. rewrite B.
  unfold round, F2R, scaled_mantissa, cexp, FIX_exp. cbn. now rewrite !Rmult_1_r.
Qed.
Lemma dfloor_spec (x : double) : is_finite x = true -> (Rabs (B2R x) <= 4503599627370496)%R -> dfloor x = Some (Zfloor (B2R x)).
Proof.
  intros F H. unfold dfloor. rewrite F. f_equal. rewrite btrunc_Z. set (z := Ztrunc (B2R x)).
  assert (Bz : Z.abs z <= 4503599627370496).
  { apply le_IZR. rewrite abs_IZR. unfold z. rewrite <- (Rabs_pos_eq (IZR 4503599627370496)) by lra. apply Rabs_le_inv in H.
    rewrite <- abs_IZR. rewrite <- Ztrunc_abs. rewrite <- abs_IZR. apply IZR_le. rewrite (Z.abs_eq 4503599627370496) by lia. rewrite <- (Ztrunc_IZR 4503599627370496). apply Ztrunc_le. apply Rabs_le; lra. }
  destruct (of_Z_spec z ltac:(lia)) as [E1 F1]. rewrite rnd_Z in E1 by lia. rewrite lt_fin by assumption. rewrite E1.
  destruct (Rle_lt_dec 0 (B2R x)) as [P|P].
  - unfold z in *. rewrite Ztrunc_floor in * by exact P. rewrite Rlt_bool_false; [reflexivity|apply Zfloor_lb].
  - unfold z in *. rewrite Ztrunc_ceil in * by lra. destruct (Req_dec (B2R x) (IZR (Zceil (B2R x)))) as [Q|Q].
    + rewrite Rlt_bool_false by lra. rewrite Q at 2. now rewrite Zfloor_IZR.
    + pose proof (Zceil_ub (B2R x)). rewrite Rlt_bool_true by lra. rewrite (Zceil_floor_neq (B2R x)); [lia|]. intros K. apply Q. rewrite <- K at 2. now rewrite Zceil_IZR.
Qed.

Lemma n_spec n : 1 <= n < 10 ^ 14 -> B2R (of_Z n) = IZR n /\ is_finite (of_Z n) = true /\ (1 <= IZR n <= 100000000000000)%R.
Proof.
  intros Hn. destruct (of_Z_spec n ltac:(lia)) as [E F]. rewrite rnd_Z in E by lia. split; [exact E|]. split; [exact F|]. split; apply IZR_le; lia.
Qed.

Section Rank.
Variable n : Z.
Hypothesis Hn : 1 <= n < 10 ^ 14.
Variable q : double.
Hypothesis Fq : is_finite q = true.
Hypothesis Hq : (0 <= B2R q <= 1)%R.

Let y := dsub q e15.
Let x := dmul (of_Z n) y.
Lemma nq_le : (0 <= IZR n * B2R q <= IZR n)%R.
Proof. destruct (n_spec n Hn) as (_ & _ & Rn). split; [apply Rmult_le_pos; lra|]. rewrite <- (Rmult_1_r (IZR n)) at 2. apply Rmult_le_compat_l; lra. Qed.
Lemma y_spec : is_finite y = true /\ B2R y = rnd (B2R q - B2R e15) /\ (Rabs (B2R y - (B2R q - B2R e15)) <= / 9007199254740992)%R /\ (B2R y <= B2R q)%R /\ (Rabs (B2R y) <= 1)%R.
Proof.
  destruct e15_spec as [Fe He]. unfold y.
  assert (B : (Rabs (B2R q - B2R e15) <= bpow radix2 0)%R) by (change (bpow radix2 0) with 1%R; apply Rabs_le; lra).
  destruct (dsub_spec q e15 0 Fq Fe ltac:(lia) B) as [E F]. split; [exact F|]. split; [exact E|]. rewrite E. split.
  - pose proof (rnd_error _ 0 ltac:(lia) B) as R. exact R.
  - split; [|exact (rnd_abs_le _ 0 ltac:(lia) B)]. rewrite <- (rnd_id (B2R q)) at 2 by apply generic_format_B2R. apply rnd_le. lra.
Qed.
Lemma x_spec : is_finite x = true /\ B2R x = rnd (IZR n * B2R y) /\ (Rabs (B2R x - IZR n * B2R y) <= / 64)%R.
Proof.
  destruct y_spec as (Fy & _ & _ & _ & Ay). destruct (n_spec n Hn) as (En & Fn & Rn). unfold x.
  assert (B : (Rabs (IZR n * B2R y) <= bpow radix2 47)%R).
  { rewrite Rabs_mult, (Rabs_pos_eq (IZR n)) by lra. change (bpow radix2 47) with 140737488355328%R. pose proof (Rabs_pos (B2R y)). nra. }
  rewrite <- En in B. destruct (dmul_spec (of_Z n) y 47 Fn Fy ltac:(lia) B) as [E F]. rewrite En in E, B. split; [exact F|]. split; [exact E|]. rewrite E.
  exact (rnd_error _ 47 ltac:(lia) B).
Qed.
(** The rank (from 1) getQuantile asks for. *)
Definition drank : Z := Z.max 1 (Zceil (B2R x)).
Lemma x_bounds : (IZR n * B2R q - 1 / 4 <= B2R x)%R /\ (B2R x <= IZR (Zceil (IZR n * B2R q)))%R.
Proof.
  destruct y_spec as (_ & _ & Ey & Uy & _). destruct x_spec as (_ & Ex & Dx). destruct (n_spec n Hn) as (_ & _ & Rn). destruct e15_spec as [_ He].
  apply Rabs_le_inv in Ey. apply Rabs_le_inv in Dx. split.
  - assert (K : (IZR n * (B2R q - 13 / 10000000000000000) <= IZR n * B2R y)%R) by (apply Rmult_le_compat_l; lra). lra.
  - rewrite Ex. set (c := Zceil (IZR n * B2R q)). assert (C : (IZR n * B2R y <= IZR c)%R) by (eapply Rle_trans; [|apply Zceil_ub]; apply Rmult_le_compat_l; lra).
    assert (B : -2 <= c <= n). { split; [|unfold c; apply Zceil_glb; apply nq_le]. apply le_IZR. apply Rle_trans with (IZR n * B2R q)%R; [|apply Zceil_ub]. pose proof nq_le. lra. }
    rewrite <- (rnd_Z c) by lia. apply rnd_le. exact C.
Qed.
Lemma drank_range : 1 <= drank <= n /\ Zceil (IZR n * B2R q) - 1 <= drank <= Z.max 1 (Zceil (IZR n * B2R q)).
Proof.
  destruct x_bounds as [L U]. destruct (n_spec n Hn) as (_ & _ & Rn).
  assert (C1 : Zceil (B2R x) <= Zceil (IZR n * B2R q)) by (apply Zceil_glb; exact U).
  assert (C2 : Zceil (IZR n * B2R q) <= n) by (apply Zceil_glb; apply nq_le).
  assert (C3 : Zceil (IZR n * B2R q) - 1 <= Zceil (B2R x)).
  { assert (Zceil (IZR n * B2R q) <= Zceil (B2R x) + 1); [|lia]. apply Zceil_glb. rewrite plus_IZR. pose proof (Zceil_ub (B2R x)). lra. }
  unfold drank. lia.
Qed.
Lemma target_ieee : target_index (A := ieee) n q = Ok (drank - 1).
Proof.
  destruct x_bounds as [L U]. destruct x_spec as (Fx & _ & _). destruct (n_spec n Hn) as (_ & _ & Rn). pose proof drank_range as [DR _]. pose proof nq_le as NQ.
  unfold target_index. cbn [nfloor nopp nmul nsub ndiv of_int ieee]. fold e15. fold y. fold x.
  assert (C2 : Zceil (IZR n * B2R q) <= n) by (apply Zceil_glb; apply nq_le). apply IZR_le in C2.
  rewrite dfloor_spec; [|now rewrite is_finite_Bopp|rewrite B2R_Bopp, Rabs_Ropp; apply Rabs_le; lra].
  rewrite B2R_Bopp. change (- Zfloor (- B2R x)) with (Zceil (B2R x)). unfold drank in *.
  assert (Zc : -1 <= Zceil (B2R x)). { apply le_IZR. pose proof (Zceil_ub (B2R x)). apply IZR_le. assert (-2 < Zceil (B2R x)) by (apply lt_IZR; lra). lia. }
  replace (- 2 ^ 63 <=? Zceil (B2R x)) with true by lia. replace (Zceil (B2R x) <? 2 ^ 63) with true by lia. cbn [andb]. cbv zeta.
  destruct (Zceil (B2R x) - 1 <? 0) eqn:H1.
  - replace (0 =? n) with false by lia. f_equal. lia.
  - replace (Zceil (B2R x) - 1 =? n) with false by lia. f_equal. lia.
Qed.
End Rank.

(** The quotient k/n, computed in doubles, asks for rank k. *)
Lemma quot_spec k n : 1 <= n < 10 ^ 14 -> 1 <= k <= n ->
  let q := ddiv (of_Z k) (of_Z n) in is_finite q = true /\ (0 <= B2R q <= 1)%R /\ (Rabs (B2R q - IZR k / IZR n) <= / 9007199254740992)%R.
Proof.
  intros Hn Hk. cbv zeta. destruct (n_spec n Hn) as (En & Fn & Rn). destruct (n_spec k ltac:(lia)) as (Ek & Fk & Rk).
  assert (Kn : (IZR k <= IZR n)%R) by (apply IZR_le; lia).
  assert (Q0 : (0 <= IZR k / IZR n)%R) by (apply quot_nonneg; lia).
  assert (N0 : (0 < IZR n)%R) by (apply IZR_lt; lia). assert (Q1 : (IZR k / IZR n <= 1)%R). { apply Rmult_le_reg_r with (IZR n); [exact N0|]. unfold Rdiv. rewrite Rmult_assoc, Rinv_l, Rmult_1_r, Rmult_1_l; [exact Kn|]. clear - N0. lra. }
  assert (B : (Rabs (IZR k / IZR n) <= bpow radix2 0)%R) by (rewrite Rabs_pos_eq by exact Q0; exact Q1).
  destruct (ddiv_spec (of_Z k) (of_Z n) 0 Fk) as [E F]. { rewrite En. lra. } { lia. } { rewrite En, Ek. exact B. }
  rewrite En, Ek in E. split; [exact F|]. rewrite E. split.
  - split; [rewrite <- rnd_0; now apply rnd_le|]. rewrite <- (rnd_Z 1) by lia. now apply rnd_le.
  - exact (rnd_error _ 0 ltac:(lia) B).
Qed.
Lemma drank_quot k n : 1 <= n < 10 ^ 14 -> 1 <= k <= n -> drank n (ddiv (of_Z k) (of_Z n)) = k.
Proof.
  intros Hn Hk. destruct (quot_spec k n Hn Hk) as (F & R & E). set (q := ddiv (of_Z k) (of_Z n)) in *.
  destruct (n_spec n Hn) as (_ & _ & Rn). destruct e15_spec as [_ He].
  destruct (y_spec q F R) as (_ & _ & Ey & _ & _). destruct (x_spec n Hn q F R) as (_ & Ex & Dx). set (y := dsub q e15) in *.
  apply Rabs_le_inv in E. apply Rabs_le_inv in Ey. apply Rabs_le_inv in Dx.
  assert (K : (IZR n * (IZR k / IZR n) = IZR k)%R) by (field; lra).
  assert (U : (IZR n * B2R y <= IZR k)%R). { rewrite <- K. apply Rmult_le_compat_l; lra. }
  assert (L : (IZR k - 1 / 4 <= IZR n * B2R y)%R).
  { assert (IZR n * (IZR k / IZR n - 14 / 10000000000000000) <= IZR n * B2R y)%R by (apply Rmult_le_compat_l; lra). lra. }
  assert (C : Zceil (B2R (dmul (of_Z n) y)) = k); [|unfold drank; fold y; rewrite C; lia].
  apply Zceil_imp. split; [rewrite minus_IZR; lra|]. rewrite Ex. rewrite <- (rnd_Z k) by lia. now apply rnd_le.
Qed.

(** ** A query, over any arithmetic in which the index is computed *)
Lemma query_gen {A : arith} s F P X E (q : A) t allow : Inv s F P X E -> q_count s = Z.of_nat (length X) -> (q_count s < 10 ^ 14)%Z -> X <> [] ->
  nle (of_int 0) q = true -> nle q (of_int 1) = true -> (allow = true \/ q_count s <= q_nbound s)%Z ->
  target_index (q_count s) q = Ok t -> 0 <= t < q_count s ->
  exists v s', getQuantile s q allow = Ok (Some v, s') /\ Inv s' F (isort P) X E /\ same s s' /\ RepF s F P /\ RepF s' F (isort P)
    /\ nth_error (isort (massL (blist (nbuffers s) F P))) (Z.to_nat t) = Some v.
Proof.
  intros I Cn Cs NX B1 B2 Ha T1 T2. assert (CX : (1 <= q_count s)%Z) by (destruct X; simpl in *; [congruence|lia]).
  pose proof I as [R C K D Er]. unfold getQuantile. replace (q_count s =? 0)%Z with false by lia.
  replace ((q_count s <=? q_nbound s)%Z || allow) with true by (destruct Ha as [-> |Ha]; [now rewrite orb_true_r|symmetry; apply orb_true_iff; left; lia]). cbn [invariant bind].
  rewrite B1, B2. cbn [andb invariant bind].
  destruct R as [[R N]|(_ & -> & ->)]. 2: { unfold fcount in C. simpl in C. destruct X; simpl in *; [congruence|lia]. }
  assert (NP : P <> []). { destruct N as [N| ->]; auto. intros ->. unfold fcount in C. simpl in C. destruct X; simpl in *; [congruence|lia]. }
  destruct (sort_for_query_spec s F P R) as (s' & E1 & R1 & (S1 & S2 & S3 & S4 & S5) & Ev). rewrite E1. cbn [bind]. rewrite S4.
  replace (q_count s <? 10 ^ 14)%Z with true by lia. cbn [invariant bind]. rewrite T1. cbn [bind].
  assert (NP' : isort P <> []). { intros H. apply NP. pose proof (isort_length P) as L. rewrite H in L. now destruct P. }
  assert (FC : fcount (nbuffers s) (buffer_size s) F (isort P) = fcount (nbuffers s) (buffer_size s) F P) by (unfold fcount; now rewrite isort_length).
  destruct (bin_search_spec s' F (isort P) t R1 (isort_sorted P) NP') as (v & E2 & V).
  { rewrite S1, S2, S4, FC, C. exact Cn. } { rewrite S4. lia. }
  rewrite E2. cbn [bind]. exists v, s'. split; auto.
  assert (PM : Permutation (massL (blist (nbuffers s) F (isort P))) (massL (blist (nbuffers s) F P))). { rewrite !blist_mass. apply Permutation_app_head, isort_perm. }
  split; [|split; [repeat split; auto|split; auto]].
  - split; rewrite ?S1, ?S2, ?Ev; auto. { left. auto. } { now rewrite FC. }
    + intros x Hx. apply K. unfold kept in *. apply in_app_or in Hx. apply in_or_app. destruct Hx as [Hx|Hx]; auto. right. now apply (Permutation_in x (isort_perm P)) in Hx.
    + intros p Dp. specialize (Er p Dp). unfold est in *. now rewrite (cnt_perm p _ _ PM).
  - rewrite S1 in V. rewrite (isort_unique _ (isort (massL (blist (nbuffers s) F P)))) in V; auto; [|apply isort_sorted].
    rewrite PM. symmetry. apply isort_perm.
Qed.
(** A double in [0,1] passes the check of getQuantile; any other fails it. *)
Lemma unit_checks (q : double) : is_finite q = true -> (0 <= B2R q <= 1)%R -> Bleb (of_Z 0) q = true /\ Bleb q (of_Z 1) = true.
Proof.
  intros F H. destruct (of_Z_spec 1 ltac:(lia)) as [E1 F1]. rewrite rnd_Z in E1 by lia. destruct of_Z_0 as [E0 F0].
  rewrite !Bleb_correct by assumption. rewrite E0, E1. split; apply Rle_bool_true; lra.
Qed.
Lemma unit_checks_fail (q : double) : ~ (is_finite q = true /\ (0 <= B2R q <= 1)%R) -> Bleb (of_Z 0) q && Bleb q (of_Z 1) = false.
Proof.
  intros H. destruct (is_finite q) eqn:F.
  - destruct (of_Z_spec 1 ltac:(lia)) as [E1 F1]. rewrite rnd_Z in E1 by lia. destruct of_Z_0 as [E0 F0].
    rewrite !Bleb_correct by assumption. rewrite E0, E1. destruct (Rle_bool_spec 0 (B2R q)), (Rle_bool_spec (B2R q) 1); try reflexivity. exfalso. apply H. auto.
  - destruct q as [s|[|]| |s m e B]; try discriminate; vm_compute; reflexivity.
Qed.
Lemma query_ieee s F P X E (q : double) allow : Inv s F P X E -> q_count s = Z.of_nat (length X) -> (q_count s < 10 ^ 14)%Z -> X <> [] ->
  is_finite q = true -> (0 <= B2R q <= 1)%R -> (allow = true \/ q_count s <= q_nbound s)%Z ->
  exists v s', getQuantile (A := ieee) s q allow = Ok (Some v, s') /\ Inv s' F (isort P) X E /\ same s s' /\ RepF s F P /\ RepF s' F (isort P)
    /\ nth_error (isort (massL (blist (nbuffers s) F P))) (Z.to_nat (drank (q_count s) q - 1)) = Some v.
Proof.
  intros I Cn Cs NX Fq Hq Ha. assert (CX : (1 <= q_count s)%Z) by (destruct X; simpl in *; [congruence|lia]).
  destruct (unit_checks q Fq Hq) as [B1 B2]. destruct (drank_range (q_count s) ltac:(lia) q Fq Hq) as [D _].
  eapply query_gen; eauto. { apply target_ieee; auto. } lia.
Qed.
