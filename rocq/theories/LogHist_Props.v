(** C74: the logarithmic histogram. C75: the one that also accumulates. *)
From Coq Require Import Reals Lra.
From Coq Require Import List ZArith Bool Lia ZifyBool ZifyNat.
From Flocq Require Import Core BinarySingleNaN.
From Verif Require Import Common CommonFacts Double64 Arith RealArith Stats_Model Histogram_Spec Histogram_Model Histogram_Arr Clock_Proofs.
From Verif Require Import HistQuery_Model HistQuery_Proofs LogHist_Spec LogHist_Model LogHist_Proofs LogHist_Query.
Import ListNotations.
Local Open Scope Z_scope.

(** In every arithmetic and with whatever log() and exp() return: if the run does not abort,
    loop or have undefined behaviour, the bins sum to the number of samples. *)
Theorem C74_total_count : forall (A : arith) (log_ exp_ : A -> A) bins_in (small high : A) scalable fuel (l : list A) h0 h,
  0 < bins_in < 2 ^ 31 -> Z.of_nat (length l) < 2 ^ 64 ->
  l_new A log_ bins_in small high scalable = Ok h0 -> l_adds A log_ exp_ fuel h0 l = Ok h ->
  zlsum (l_bins h) = Z.of_nat (length l) /\ Z.of_nat (length (l_bins h)) = 2 * ((bins_in + 1) / 2) /\ l_num h = Z.of_nat (length (l_bins h)) /\
  l_base h = fold_left (st_add A) l (st_new A).
Proof.
  intros A log_ exp_ bins_in small high sc fuel l h0 h B L N E. destruct (l_new_eq A log_ exp_ bins_in small high sc h0 B N) as (T0 & B0 & N0 & _).
  destruct (l_adds_total A log_ exp_ fuel l h0 0 h T0 L E) as (((m & S1 & S2 & _) & _ & T) & B' & N'). repeat split; [exact T|lia|lia|congruence].
Qed.
Print Assumptions C74_total_count.

(** Over the reals, scalable: any positive samples are accepted and the doubling loops end;
    the ends of the bins form a geometric progression from the final low to the final high
    end, every sample is between those, and bin i counts the samples of its interval. *)
Theorem C74_scalable_bins : forall bins_in small high (xs : list R),
  0 < bins_in < 2 ^ 31 -> (0 < small < high)%R -> Z.of_nat (length xs) < 2 ^ 64 -> Forall (fun x => 0 < x)%R xs ->
  exists N h0 h s hi c,
    l_new reals rlog bins_in (RFin small) (RFin high) true = Ok h0 /\
    (forall fuel, (N <= fuel)%nat -> l_adds reals rlog rexp fuel h0 (map RFin xs) = Ok h) /\
    Z.of_nat (length (l_bins h)) = 2 * ((bins_in + 1) / 2) /\
    l_small h = RFin s /\ l_high h = RFin hi /\ (0 < s)%R /\ (0 < c)%R /\ hi = ledge s c (length (l_bins h)) /\
    Forall (fun x => s <= x < hi)%R xs /\
    (forall i n, nth_error (l_bins h) i = Some n -> n = rcount (lbin s c i) xs) /\
    (forall i, (i < length (l_bins h))%nat -> l_binlow reals rexp h (Z.of_nat i) = RFin (ledge s c i) /\ l_binhigh reals rexp h (Z.of_nat i) = RFin (ledge s c (S i))).
Proof.
  intros bins_in small high xs B S L P. destruct (lnew_ok bins_in small high true B S) as (h0 & c0 & E & R & SC & L0 & _).
  destruct (lscal_adds xs h0 small high c0 [] R SC ltac:(cbn [length]; lia) P) as (N & h & s & hi & c & O & R' & L').
  exists N, h0, h, s, hi, c. split; [exact E|]. split; [intros fuel Hf; exact (l_adds_mono reals rlog rexp N fuel _ h0 h O Hf)|].
  destruct R' as (E1 & E2 & E3 & S' & C' & EH & (m & Lm & Nm & Pm & NB) & Ct & F). split; [rewrite L'; exact L0|]. repeat (split; [assumption|]). intros i Hi. unfold l_binlow, l_binhigh.
  replace (u32 (Z.of_nat i + 1)) with (Z.of_nat (Datatypes.S i)) by (unfold u32; rewrite Z.mod_small; lia).
  change (@of_int reals (Z.of_nat i)) with (RFin (IZR (Z.of_nat i))). change (@of_int reals (Z.of_nat (Datatypes.S i))) with (RFin (IZR (Z.of_nat (Datatypes.S i)))). rewrite !(binOffset_eq h s c _ E1 E3 C'), <- !INR_IZR_INZ. auto.
Qed.
Print Assumptions C74_scalable_bins.

(** Over the reals, fixed range: positive samples that are not so far out that their bin
    number leaves an unsigned are counted in the bin of their interval, the first bin taking
    also what is below and the last what is above. *)
Theorem C74_fixed_bins : forall bins_in small high (xs : list R) fuel,
  0 < bins_in < 2 ^ 31 -> (0 < small < high)%R -> Z.of_nat (length xs) < 2 ^ 64 ->
  Forall (fun x => 0 < x /\ IZR (2 * ((bins_in + 1) / 2)) * ln (x / small) < IZR (2 ^ 32) * ln (high / small))%R xs ->
  exists h0 h c,
    l_new reals rlog bins_in (RFin small) (RFin high) false = Ok h0 /\ l_adds reals rlog rexp fuel h0 (map RFin xs) = Ok h /\
    Z.of_nat (length (l_bins h)) = 2 * ((bins_in + 1) / 2) /\
    l_small h = RFin small /\ l_high h = RFin high /\ (0 < c)%R /\ high = ledge small c (length (l_bins h)) /\
    (forall i n, nth_error (l_bins h) i = Some n -> n = rcount (lbin_clamped small c (length (l_bins h)) i) xs).
Proof.
  intros bins_in small high xs fuel B S L P. destruct (lnew_ok bins_in small high false B S) as (h0 & c & E & R & SC & L0 & _).
  pose proof (HL_HC_new _ _ _ _ R SC) as R1. pose proof R as (_ & _ & _ & _ & C & EH & _).
  assert (Ec : ln (high / small) = (IZR (2 * ((bins_in + 1) / 2)) / c)%R) by (rewrite EH, ledge_ln by (exact C || lra); rewrite INR_IZR_INZ, L0; reflexivity).
  assert (Hn : (0 < IZR (2 * ((bins_in + 1) / 2)))%R) by (apply IZR_lt; Z.to_euclidean_division_equations; lia).
  destruct (lfixed_adds xs h0 small high c [] fuel R1 ltac:(cbn [length]; lia)) as (h & O & R' & L').
  { eapply Forall_impl; [|exact P]. cbn. intros x (X1 & X2). split; [exact X1|]. right. rewrite Ec in X2. apply (Rmult_lt_reg_l (IZR (2 * ((bins_in + 1) / 2)) / c)); [apply Rdiv_lt_0_compat; assumption|].
    replace (IZR (2 * ((bins_in + 1) / 2)) / c * (c * ln (x / small)))%R with (IZR (2 * ((bins_in + 1) / 2)) * ln (x / small))%R by (field; lra). eapply Rlt_le_trans; [exact X2|right; apply Rmult_comm]. }
  exists h0, h, c. split; [exact E|]. split; [exact O|]. split; [rewrite L'; exact L0|]. destruct R' as (E1 & E2 & E3 & S' & C' & EH' & Sh & SC' & Ct). repeat (split; [assumption|]). exact Ct.
Qed.
Print Assumptions C74_fixed_bins.

(** A value that is not positive is refused, as is a bad constructor argument. *)
Theorem C74_refused : forall fuel (h : lhist reals) x bins_in small high scalable, (x <= 0)%R -> bins_in = 0 \/ (small <= 0)%R \/ (high < small)%R ->
  l_add reals rlog rexp fuel h (RFin x) = Abort /\ l_new reals rlog bins_in (RFin small) (RFin high) scalable = Abort.
Proof.
  intros fuel h x bins_in small high sc X H. split.
  - unfold l_add. change (@of_int reals 0) with (RFin 0). rewrite rnlt, (proj2 (rle_iff x 0)) by exact X. reflexivity.
  - unfold l_new. destruct (0 <? bins_in) eqn:E1; [|reflexivity]. cbn [invariant bind]. change (@of_int reals 0) with (RFin 0). rewrite rnlt. destruct (rle small 0) eqn:E2; [reflexivity|]. cbn [negb invariant bind]. rewrite rnle. destruct (rle small high) eqn:E3; [|reflexivity].
    apply rle_false in E2. apply rle_iff in E3. exfalso. destruct H as [H|[H|H]]; [lia|lra|lra].
Qed.
Print Assumptions C74_refused.

(** [h] was built with these ends, scalable or not, and accepted the samples [xs]. *)
Definition log_fed (xs : list R) (h : lhist reals) : Prop :=
  Z.of_nat (length xs) < 2 ^ 64 /\ exists bins_in small high scalable fuel h0, 0 < bins_in < 2 ^ 31 /\ (0 < small < high)%R /\
  l_new reals rlog bins_in (RFin small) (RFin high) scalable = Ok h0 /\ l_adds reals rlog rexp fuel h0 (map RFin xs) = Ok h.
Lemma log_fed_facts : forall xs h, log_fed xs h -> exists s c, LF h s c xs.
Proof. intros xs h (L & b & s & hi & sc & f & h0 & B & S & N & E). eapply lfed; eassumption. Qed.

(** mode: the geometric mean of the ends of a bin that no other exceeds; of several the last. *)
Theorem C74_mode : forall xs h, log_fed xs h -> exists s c k n m, l_small h = RFin s /\ l_scaling h = RFin c /\
  l_mode reals rexp h = Ok (RFin m) /\ (0 < m)%R /\ (m * m = ledge s c k * ledge s c (S k))%R /\ nth_error (l_bins h) k = Some n /\
  forall j x, nth_error (l_bins h) j = Some x -> x <= n /\ ((k < j)%nat -> x < n).
Proof.
  intros xs h F. destruct (log_fed_facts _ _ F) as (s & c & E1 & E3 & S & C & Sh & _). destruct (lmode_ok h s c E1 E3 S C Sh) as (k & q & m & E & -> & Ek & H).
  exists s, c, k, q. eexists. split; [exact E1|]. split; [exact E3|]. split; [exact E|]. split; [pose proof (exp_pos ((INR k + 1 / 2) / c)); nra|]. split; [|auto].
  unfold ledge. rewrite S_INR. replace (s * exp ((INR k + 1 / 2) / c) * (s * exp ((INR k + 1 / 2) / c)))%R with (s * s * (exp ((INR k + 1 / 2) / c) * exp ((INR k + 1 / 2) / c)))%R by ring.
  replace (s * exp (INR k / c) * (s * exp ((INR k + 1) / c)))%R with (s * s * (exp (INR k / c) * exp ((INR k + 1) / c)))%R by ring. f_equal. rewrite <- !exp_plus. f_equal. field. lra.
Qed.
Print Assumptions C74_mode.

(** percentile(p): a value in a bin that holds samples, such that fewer than p of all samples
    are below the bin and at least p of them below its end; within the bin it is placed, on
    the logarithmic scale, by how many of the bin's samples are still needed. The one exception is p of no
    samples at all when the first bin is empty, which gives 0. *)
Theorem C74_percentile : forall xs h p, log_fed xs h -> (0 <= p <= 1)%R ->
  exists s c k n r, l_small h = RFin s /\ l_scaling h = RFin c /\ l_percentile reals rexp h (RFin p) = Ok (RFin r) /\ nth_error (l_bins h) k = Some n /\
    ((n = 0 /\ k = 0%nat /\ r = 0%R /\ (p * INR (length xs) = 0)%R) \/
     (0 < n /\ (ledge s c k <= r <= ledge s c (S k))%R /\
      (k = 0%nat \/ (IZR (rcount (fun x => negb (rle (ledge s c k) x)) xs) < p * INR (length xs))%R) /\
      (S k = length (l_bins h) \/ (p * INR (length xs) <= IZR (rcount (fun x => negb (rle (ledge s c (S k)) x)) xs))%R) /\
      r = (s * exp ((INR k + (p * INR (length xs) - IZR (zlsum (firstn k (l_bins h)))) / IZR n) / c))%R)).
Proof.
  intros xs h p F P. destruct (log_fed_facts _ _ F) as (s & c & LFh). pose proof LFh as (E1 & E3 & S & C & _ & NN & _ & _ & Hk).
  destruct (lpercentile_ok h s c xs p LFh (proj1 F) P) as (k & q & r & E & Ek & D). exists s, c, k, q, r. repeat (split; [assumption|]). destruct D as [D|(D1 & D2 & D3 & ->)]; [left; exact D|right].
  assert (Lk : (k < length (l_bins h))%nat) by (apply nth_error_Some; congruence). assert (Hq : (0 < IZR q)%R) by (apply IZR_lt; exact D1). pose proof (prefix_S _ _ _ Ek) as Ep.
  split; [exact D1|]. split.
  - apply lpercentile_in_bin; [exact S|exact C|]. set (t := (p * INR (length xs))%R) in *. rewrite Ep, plus_IZR in D3.
    assert (G : (IZR (prefix (l_bins h) k) <= t)%R) by (destruct k as [|k]; [unfold prefix; cbn [firstn zlsum fold_right]; unfold t; apply Rmult_le_pos; [lra|apply pos_INR]|left; apply D2; lia]).
    split; [apply Rmult_le_pos; [lra|left; now apply Rinv_0_lt_compat]|]. apply (Rmult_le_reg_r (IZR q)); [exact Hq|]. replace ((t - IZR (prefix (l_bins h) k)) / IZR q * IZR q)%R with (t - IZR (prefix (l_bins h) k))%R by (field; lra). lra.
  - split; [|split].
    + destruct k as [|k]; [now left|]. right. specialize (D2 ltac:(lia)). rewrite (Hk (Datatypes.S k)) in D2 by lia. exact D2.
    + destruct (Nat.eq_dec (Datatypes.S k) (length (l_bins h))) as [|Nk]; [now left|]. right. rewrite (Hk (Datatypes.S k)) in D3 by lia. exact D3.
    + reflexivity.
Qed.
Print Assumptions C74_percentile.
(** A larger p never gives a smaller result. *)
Theorem C74_monotone : forall xs h p q r t, log_fed xs h -> (0 <= p <= q)%R -> (q <= 1)%R ->
  l_percentile reals rexp h (RFin p) = Ok (RFin r) -> l_percentile reals rexp h (RFin q) = Ok (RFin t) -> (r <= t)%R.
Proof.
  intros xs h p q r t F P Q Er Et. destruct (log_fed_facts _ _ F) as (s & c & LFh). pose proof LFh as (E1 & E3 & S & C & _ & NN & _ & _ & Hk).
  destruct (lpercentile_ok h s c xs p LFh (proj1 F) ltac:(lra)) as (k & a & r' & E & Ek & D). destruct (lpercentile_ok h s c xs q LFh (proj1 F) ltac:(lra)) as (j & b & t' & E' & Ej & D').
  assert (r' = r) by congruence. assert (t' = t) by congruence. subst r' t'. set (n := INR (length xs)) in *. assert (Hn : (0 <= n)%R) by apply pos_INR. assert (M : (p * n <= q * n)%R) by nra.
  destruct D as [(D1 & D2 & -> & D4)|(D1 & D2 & D3 & ->)].
  - destruct D' as [(_ & _ & -> & _)|(_ & _ & _ & ->)]; [lra|]. pose proof (exp_pos ((INR j + (q * n - IZR (prefix (l_bins h) j)) / IZR b) / c)). nra.
  - destruct D' as [(G1 & G2 & -> & G4)|(G1 & G2 & G3 & ->)].
    + exfalso. subst b j. assert (Hp : (p * n <= 0)%R) by lra. destruct k as [|k]; [rewrite Ek in Ej; injection Ej as ->; lia|]. specialize (D2 ltac:(lia)). pose proof (prefix_nonneg (l_bins h) (Datatypes.S k) NN) as (Z & _). apply IZR_le in Z. lra.
    + apply Rmult_le_compat_l; [lra|]. apply exp_le. apply Rmult_le_compat_r; [left; now apply Rinv_0_lt_compat|].
      assert (Ha : (0 < IZR a)%R) by (apply IZR_lt; exact D1). assert (Hb : (0 < IZR b)%R) by (apply IZR_lt; exact G1).
      pose proof (prefix_S _ _ _ Ek) as Ep. pose proof (prefix_S _ _ _ Ej) as Ep'. rewrite Ep, plus_IZR in D3. rewrite Ep', plus_IZR in G3.
      assert (U : ((p * n - IZR (prefix (l_bins h) k)) / IZR a <= 1)%R) by (apply (Rmult_le_reg_r (IZR a)); [exact Ha|]; replace ((p * n - IZR (prefix (l_bins h) k)) / IZR a * IZR a)%R with (p * n - IZR (prefix (l_bins h) k))%R by (field; lra); lra).
      assert (Gj : (IZR (prefix (l_bins h) j) <= q * n)%R) by (destruct j as [|j]; [unfold prefix; cbn [firstn zlsum fold_right]; apply Rmult_le_pos; lra|left; apply G2; lia]).
      assert (V : (0 <= (q * n - IZR (prefix (l_bins h) j)) / IZR b)%R) by (apply Rmult_le_pos; [lra|left; now apply Rinv_0_lt_compat]).
      destruct (Nat.lt_trichotomy k j) as [H|[H|H]].
      * assert (INR k + 1 <= INR j)%R by (rewrite <- S_INR; apply le_INR; lia). lra.
      * subst j. assert (b = a) by congruence. subst b. apply Rplus_le_compat_l. apply Rmult_le_compat_r; [left; now apply Rinv_0_lt_compat|lra].
      * exfalso. specialize (D2 ltac:(lia)). assert (Z : prefix (l_bins h) (Datatypes.S j) <= prefix (l_bins h) k) by (apply prefix_mono; [assumption|lia]). rewrite Ep' in Z. apply IZR_le in Z. rewrite plus_IZR in Z. lra.
Qed.
Print Assumptions C74_monotone.

(** With doubles and any log() and exp(): percentile never reads outside the bins and never
    aborts, for up to 2^53 samples. *)
Theorem C74_double_safe : forall (log_ exp_ : double -> double) bins_in (small high : double) scalable fuel (xs : list double) h0 (h : lhist ieee) p,
  0 < bins_in < 2 ^ 31 -> Z.of_nat (length xs) < 2 ^ 53 -> l_new ieee log_ bins_in small high scalable = Ok h0 -> l_adds ieee log_ exp_ fuel h0 xs = Ok h ->
  is_finite p = true -> (0 <= B2R p <= 1)%R -> exists r, l_percentile ieee exp_ h p = Ok r.
Proof.
  intros log_ exp_ bins_in small high sc fuel xs h0 h p B L N E F P.
  assert (L' : Z.of_nat (@length (num ieee) xs) < 2 ^ 64) by (change (@length (num ieee) xs) with (@length double xs); lia).
  destruct (l_new_eq ieee log_ exp_ bins_in small high sc h0 B N) as (T0 & B0 & N0 & _). destruct (l_adds_total ieee log_ exp_ fuel xs h0 0 h T0 L' E) as (((m & S1 & S2 & S3 & _) & NN & T) & B' & _).
  assert (Cn : number (l_base h) = Z.of_nat (length xs)) by (rewrite B', B0; rewrite number_adds; cbn [st_new number]; [reflexivity|lia|exact L']).
  destruct (l_percentile_safe ieee exp_ h p) as (k & q & _ & _ & _ & Q & _); [lia|exact NN|rewrite T; exact L'|now apply double_in_range| |eauto].
  unfold st_count. rewrite Cn, T. rewrite Z.add_0_l. change (@length (num ieee) xs) with (@length double xs). set (n := Z.of_nat (length xs)) in *. cbn [ieee nle nmul of_int]. destruct (of_Z_exact n ltac:(lia)) as (En & Fn).
  assert (Hb : (0 <= IZR n <= bpow radix2 53)%R) by (change (bpow radix2 53) with (IZR (2 ^ 53)); split; apply IZR_le; lia).
  destruct (dmul_spec p (of_Z n) 53 F Fn ltac:(lia)) as (Em & Fm); [rewrite En, Rabs_pos_eq by nra; nra|].
  rewrite bleb_R by assumption. rewrite Em, En. apply Rle_bool_true. rewrite <- (rnd_Z n) at 2 by lia. apply rnd_le. nra.
Qed.
Print Assumptions C74_double_safe.

(** Corners where the code departs from this. *)
(** One past the last bin is accepted as an index. *)
Theorem C74_index_off_by_one_refuted : forall xs h, log_fed xs h -> l_index reals h (l_num h) = UB.
Proof.
  intros xs h F. destruct (log_fed_facts _ _ F) as (s & c & _ & _ & _ & _ & (m & L & N & _) & _). unfold l_index. rewrite Z.leb_refl. cbn [invariant bind]. unfold zget, get. replace (0 <=? l_num h) with true by lia.
  rewrite (proj2 (nth_error_None _ _)) by lia. reflexivity.
Qed.
Print Assumptions C74_index_off_by_one_refuted.
(** binWidth() is not the width of any bin: it is the upper end of the first. *)
Theorem C74_bin_width_refuted : forall xs h, log_fed xs h -> exists s c, (0 < s)%R /\ l_small h = RFin s /\ l_scaling h = RFin c /\
  l_binWidth0 reals rexp h = RFin (ledge s c 1) /\ l_binWidth reals rexp h 0 = RFin (ledge s c 1 - s) /\ (ledge s c 1 <> ledge s c 1 - s)%R.
Proof.
  intros xs h F. destruct (log_fed_facts _ _ F) as (s & c & E1 & E3 & S & C & _). exists s, c. split; [exact S|]. split; [exact E1|]. split; [exact E3|]. unfold l_binWidth0, l_binWidth. change (u32 (0 + 1)) with 1. change (@of_int reals 1) with (RFin 1). change (@of_int reals 0) with (RFin 0).
  rewrite !(binOffset_eq h s c _ E1 E3 C). unfold ledge. cbn [INR nsub reals rop]. split; [reflexivity|]. split; [|lra]. do 2 f_equal. unfold Rdiv. rewrite Rmult_0_l, exp_0. ring.
Qed.
Print Assumptions C74_bin_width_refuted.
(** isScalable() denies it. *)
Theorem C74_is_scalable_refuted : exists h, l_new reals rlog 4 (RFin 1) (RFin 2) true = Ok h /\ l_scalable h = true /\ l_isScalable reals h = false.
Proof. destruct (lnew_ok 4 1 2 true ltac:(lia) ltac:(lra)) as (h & c & E & _ & SC & _). exists h. auto. Qed.
Print Assumptions C74_is_scalable_refuted.
(** percentile(0) is 0, outside every bin, when the first bin is empty. *)
Theorem C74_zero_refuted : forall xs h, log_fed xs h -> nth_error (l_bins h) 0 = Some 0 -> l_percentile reals rexp h (RFin 0) = Ok (RFin 0).
Proof.
  intros xs h F E0. destruct (log_fed_facts _ _ F) as (s & c & LFh). pose proof LFh as (_ & _ & _ & _ & _ & NN & _). destruct (lpercentile_ok h s c xs 0 LFh (proj1 F) ltac:(lra)) as (k & q & r & E & Ek & D).
  destruct D as [(_ & _ & -> & _)|(D1 & D2 & _)]; [exact E|]. exfalso. destruct k as [|k]; [rewrite Ek in E0; injection E0 as ->; lia|]. specialize (D2 ltac:(lia)). pose proof (prefix_nonneg (l_bins h) (S k) NN) as (Z & _). apply IZR_le in Z. lra.
Qed.
Print Assumptions C74_zero_refuted.
(** A fixed range: a sample far above a narrow range overflows the conversion of its bin
    number to unsigned. *)
Theorem C74_far_sample_refuted : exists h, l_new reals rlog 2 (RFin 1) (RFin (exp (/ 2 ^ 31))) false = Ok h /\ forall fuel, l_add reals rlog rexp fuel h (RFin (exp 1)) = UB.
Proof.
  assert (X : (0 < / 2 ^ 31)%R) by (apply Rinv_0_lt_compat, pow_lt; lra). assert (X1 : (0 < 1)%R) by lra.
  destruct (lnew_ok 2 1 (exp (/ 2 ^ 31)) false ltac:(lia)) as (h & c & E & R & SC & L & N). { split; [lra|]. rewrite <- exp_0 at 1. now apply exp_increasing. }
  exists h. split; [exact E|]. intros fuel. destruct R as (E1 & E2 & E3 & S & C & EH & _).
  assert (Ec : c = (2 ^ 32)%R).
  { pose proof (ledge_ln 1 c (length (l_bins h)) S C) as Q. rewrite <- EH in Q. unfold Rdiv in Q at 1. rewrite Rinv_1, Rmult_1_r, ln_exp in Q. rewrite INR_IZR_INZ, L in Q. change (2 * ((2 + 1) / 2)) with 2 in Q.
    assert (c = 2 * 2 ^ 31)%R; [|rewrite H; cbn [pow]; ring]. apply (Rmult_eq_reg_r (/ 2 ^ 31)); [|lra]. rewrite Rmult_assoc, Rinv_r, Rmult_1_r by (apply pow_nonzero; lra). rewrite Q. field. lra. }
  unfold l_add. change (@of_int reals 0) with (RFin 0). rewrite rnlt, (proj2 (rle_false (exp 1) 0)) by apply exp_pos. cbn [negb invariant bind]. unfold l_scale. cbn [l_with_base l_scalable]. rewrite SC. cbn [andb bind].
  unfold l_sampleBin. cbn [l_small l_scaling l_with_base]. rewrite E1, E3, rnle. assert (G : (1 < exp 1)%R) by (rewrite <- exp_0 at 1; apply exp_increasing; lra). rewrite (proj2 (rle_false (exp 1) 1)) by exact G.
  rewrite rndiv by lra. rewrite rlog_pos by (unfold Rdiv; rewrite Rinv_1, Rmult_1_r; lra). cbn [nmul reals rop]. unfold floor_unsigned. cbn [nfloor reals]. unfold Rdiv. rewrite Rinv_1, Rmult_1_r, ln_exp, Rmult_1_r, Ec.
  replace (2 ^ 32)%R with (IZR (2 ^ 32)) by (rewrite (pow_IZR 2 32); reflexivity). rewrite Zfloor_IZR. reflexivity.
Qed.
Print Assumptions C74_far_sample_refuted.

(** The lower end may equal the upper; then with doubles the scaling is infinite and the
    first larger sample has undefined behaviour. *)
Theorem C74_empty_range_refuted : forall (log_ exp_ : double -> double) e m H, log_ (of_Z 1) = of_Z 0 -> log_ (of_Z 2) = B754_finite false m e H ->
  exists h, l_new ieee log_ 4 (of_Z 1) (of_Z 1) false = Ok h /\ forall fuel, l_add ieee log_ exp_ fuel h (of_Z 2) = UB.
Proof.
  intros log_ exp_ e m H L1 L2. unfold l_new. change (0 <? 4) with true. replace (@nlt ieee (of_int 0) (of_Z 1)) with true by (vm_compute; reflexivity). replace (@nle ieee (of_Z 1) (of_Z 1)) with true by (vm_compute; reflexivity). cbn [invariant bind].
  replace (@ndiv ieee (of_Z 1) (of_Z 1)) with (of_Z 1) by (apply B2SF_inj; vm_compute; reflexivity). rewrite L1. eexists. split; [reflexivity|]. intros fuel. unfold l_add. replace (@nlt ieee (of_int 0) (of_Z 2)) with true by (vm_compute; reflexivity). cbn [invariant bind].
  unfold l_scale. cbn [l_with_base l_reset l_with_bins l_scalable andb bind]. unfold l_sampleBin. cbn [l_small l_scaling l_with_base l_reset l_with_bins]. replace (@nle ieee (of_Z 2) (of_Z 1)) with false by (vm_compute; reflexivity).
  replace (@ndiv ieee (of_Z 2) (of_Z 1)) with (of_Z 2) by (apply B2SF_inj; vm_compute; reflexivity). rewrite L2. reflexivity.
Qed.
Print Assumptions C74_empty_range_refuted.

(** Adding infinity to a scalable histogram of doubles never returns, whatever log() and exp()
    compute, as long as they give NaN only for NaN or negative arguments. *)
Lemma not_nan_le_inf : forall x : double, is_nan x = false -> @nle ieee x (B754_infinity false) = true.
Proof. intros [s|s| |s m e H] N; try discriminate; try destruct s; reflexivity. Qed.
Lemma mul_not_nan : forall x y : double, is_finite_strict x = true -> is_nan y = false -> is_nan (dmul x y) = false.
Proof.
  intros x y F N. destruct (is_finite y) eqn:Fy; [|destruct x, y; try discriminate; reflexivity].
  unfold dmul. pose proof (@Bmult_correct 53 1024 eq_refl eq_refl mode_NE x y) as B. destruct (Rlt_bool _ _).
  - destruct B as (_ & B & _). rewrite Fy in B. replace (is_finite x) with true in B by (destruct x; try discriminate; reflexivity). destruct (Bmult mode_NE x y); try discriminate; reflexivity.
  - destruct (Bmult mode_NE x y); try reflexivity. cbn in B. destruct (xorb _ _); discriminate.
Qed.
Lemma div_not_nan : forall x y : double, is_finite_strict x = true -> is_nan y = false -> is_nan (ddiv x y) = false.
Proof.
  intros x y F N. destruct (is_finite_strict y) eqn:Fy; [|destruct x, y; try discriminate; reflexivity].
  unfold ddiv. assert (Ny : B2R y <> 0%R) by (destruct y as [| | |s m e H]; try discriminate; cbn; apply F2R_neq_0; destruct s; discriminate).
  pose proof (@Bdiv_correct 53 1024 eq_refl eq_refl mode_NE x y Ny) as B. destruct (Rlt_bool _ _).
  - destruct B as (_ & B & _). replace (is_finite x) with true in B by (destruct x; try discriminate; reflexivity). destruct (Bdiv mode_NE x y); try discriminate; reflexivity.
  - destruct (Bdiv mode_NE x y); try reflexivity. cbn in B. destruct (xorb _ _); discriminate.
Qed.
Lemma high_loop_inf : forall (exp_ : double -> double), (forall x, is_nan x = false -> is_nan (exp_ x) = false) -> forall fuel (h : lhist ieee), lshape ieee h ->
  is_finite_strict (l_small h) = true -> is_nan (l_scaling h) = false -> is_nan (l_high h) = false -> l_high_loop ieee exp_ fuel h (B754_infinity false) = Fuel.
Proof.
  intros exp_ He. induction fuel as [|f IH]; intros h Sh Fs Ns Nh; cbn [l_high_loop]; rewrite not_nan_le_inf by exact Nh; [reflexivity|].
  destruct Sh as (m & L & N & P & NB). rewrite (l_high_once_eq ieee exp_ h m L N). cbn [bind].
  assert (N2 : is_nan (@ndiv ieee (l_scaling h) (of_int 2)) = false).
  { cbn [ndiv ieee of_int]. assert (E2 : B2R (of_Z 2) <> 0%R) by (rewrite (proj1 (of_Z_exact 2 ltac:(lia))); apply not_eq_sym, IZR_neq; lia). destruct (is_finite (l_scaling h)) eqn:F.
    - unfold ddiv. pose proof (@Bdiv_correct 53 1024 eq_refl eq_refl mode_NE (l_scaling h) (of_Z 2) E2) as B. destruct (Rlt_bool _ _).
      + destruct B as (_ & B & _). rewrite F in B. destruct (Bdiv mode_NE (l_scaling h) (of_Z 2)); try discriminate; reflexivity.
      + destruct (Bdiv mode_NE (l_scaling h) (of_Z 2)); try reflexivity. cbn in B. destruct (xorb _ _); discriminate.
    - destruct (l_scaling h); try discriminate. reflexivity. }
  assert (Fn : is_finite_strict (@of_int ieee (l_num h)) = true).
  { cbn [of_int ieee]. destruct (of_Z_exact (l_num h) ltac:(lia)) as (E & F). destruct (of_Z (l_num h)) eqn:Q; try discriminate; [|reflexivity]. cbn in E. apply (eq_IZR 0) in E. lia. }
  apply IH; cbn [l_small l_scaling l_high].
  - exists m. cbn [l_bins l_num]. rewrite app_length, repeat_length, (pairs_length m) by exact L. lia.
  - exact Fs.
  - exact N2.
  - apply mul_not_nan; [exact Fs|]. apply He. apply div_not_nan; assumption.
Qed.
Theorem C74_infinity_refuted : forall (log_ exp_ : double -> double) bins_in (small high : double) h,
  (forall x, is_nan x = false -> is_nan (exp_ x) = false) -> 0 < bins_in < 2 ^ 31 -> is_finite small = true ->
  l_new ieee log_ bins_in small high true = Ok h -> is_nan (l_scaling h) = false -> forall fuel, l_add ieee log_ exp_ fuel h (B754_infinity false) = Fuel.
Proof.
  intros log_ exp_ bins_in small high h He B Fs N Ns fuel. destruct (l_new_eq ieee log_ exp_ bins_in small high true h B N) as ((Sh & _) & _).
  unfold l_new in N. replace (0 <? bins_in) with true in N by lia. cbn [invariant bind] in N. destruct (@nlt ieee (of_int 0) small) eqn:E1; [|discriminate]. cbn [invariant bind] in N. destruct (@nle ieee small high) eqn:E2; [|discriminate]. cbn [invariant bind] in N. apply Ok_inj in N.
  assert (Es : l_small h = small) by (subst h; reflexivity). assert (Eh : l_high h = high) by (subst h; reflexivity). assert (SC : l_scalable h = true) by (subst h; reflexivity). clear N.
  assert (Ss : is_finite_strict small = true) by (destruct small as [s|s| |s m e H]; try discriminate; reflexivity).
  assert (Nh : is_nan high = false) by (destruct high as [s|s| |s m e H]; try reflexivity; destruct small; discriminate).
  unfold l_add. change (@nlt ieee (of_int 0) (B754_infinity false)) with true. cbn [invariant bind]. unfold l_scale. cbn [l_with_base l_scalable]. rewrite SC. cbn [andb].
  assert (Q1 : @nlt ieee (B754_infinity false) small = false) by (destruct small as [s|s| |s m e H]; try discriminate; reflexivity).
  cbn [l_small l_high l_with_base]. rewrite Es, Eh, Q1, not_nan_le_inf by exact Nh. cbn [orb].
  set (h1 := l_with_base ieee h (st_add ieee (l_base h) (B754_infinity false))).
  replace (l_low_loop ieee exp_ fuel h1 (B754_infinity false)) with (Ok h1). 2: { destruct fuel; cbn [l_low_loop]; unfold h1; cbn [l_small l_with_base]; rewrite Es, Q1; reflexivity. }
  cbn [bind]. rewrite high_loop_inf; [reflexivity|exact He|exact Sh|unfold h1; cbn [l_small l_with_base]; rewrite Es; exact Ss|exact Ns|unfold h1; cbn [l_high l_with_base]; rewrite Eh; exact Nh].
Qed.
Print Assumptions C74_infinity_refuted.

(** reset(): a histogram of fixed range is as new; a scalable one keeps the range it grew to. *)
Lemma l_fixed_keeps : forall (A : arith) (log_ exp_ : A -> A) fuel (l : list A) (h h' : lhist A), l_scalable h = false -> l_adds A log_ exp_ fuel h l = Ok h' ->
  l_num h' = l_num h /\ l_small h' = l_small h /\ l_high h' = l_high h /\ l_scaling h' = l_scaling h /\ l_scalable h' = false /\ length (l_bins h') = length (l_bins h).
Proof.
  intros A log_ exp_ fuel. induction l as [|x l IH]; intros h h' SC E; cbn [l_adds] in E; [apply Ok_inj in E; subst; auto 9|].
  destruct (l_add A log_ exp_ fuel h x) as [h1| | |] eqn:E1; try discriminate. cbn [bind] in E. unfold l_add in E1. destruct (nlt _ x); [|discriminate]. cbn [invariant bind] in E1. unfold l_scale in E1. cbn [l_with_base l_scalable] in E1. rewrite SC in E1. cbn [andb bind] in E1.
  destruct (l_sampleBin _ _ _ _) as [k| | |]; try discriminate. cbn [bind] in E1. destruct (zget _ _) as [c| | |]; try discriminate. cbn [bind] in E1. destruct (zput _ _ _) as [b| | |] eqn:P; try discriminate. cbn [bind] in E1. apply Ok_inj in E1. subst h1.
  apply zput_inv in P as (j & _ & _ & ->). apply IH in E; [|exact SC]. cbn [l_with_bins l_with_base l_num l_small l_high l_scaling l_scalable l_bins] in E. rewrite length_upd in E. exact E.
Qed.
Theorem C74_reset : forall (A : arith) (log_ exp_ : A -> A) bins_in small high fuel (l : list A) h0 h,
  l_new A log_ bins_in small high false = Ok h0 -> l_adds A log_ exp_ fuel h0 l = Ok h -> l_reset A h = h0.
Proof.
  intros A log_ exp_ bins_in small high fuel l h0 h N E. unfold l_new in N. destruct (0 <? bins_in); [|discriminate]. cbn [invariant bind] in N. destruct (nlt _ small); [|discriminate]. cbn [invariant bind] in N. destruct (nle small high); [|discriminate]. cbn [invariant bind] in N. apply Ok_inj in N.
  assert (SC : l_scalable h0 = false) by (subst h0; reflexivity). destruct (l_fixed_keeps A log_ exp_ fuel l h0 h SC E) as (Q1 & Q2 & Q3 & Q4 & Q5 & Q6).
  unfold l_reset, l_with_bins, l_with_base. cbn [l_base l_num l_small l_high l_scaling l_scalable l_bins]. rewrite Q1, Q2, Q3, Q4, Q5, Q6. subst h0. unfold l_reset, l_with_bins, l_with_base, st_reset. cbn [l_base l_num l_small l_high l_scaling l_scalable l_bins]. rewrite !repeat_length. reflexivity.
Qed.
Print Assumptions C74_reset.
Theorem C74_reset_refuted : exists fuel h0 h hi, l_new reals rlog 2 (RFin 1) (RFin 2) true = Ok h0 /\ l_high h0 = RFin 2 /\ l_adds reals rlog rexp fuel h0 [RFin 2] = Ok h /\
  l_high (l_reset reals h) = RFin hi /\ (2 < hi)%R.
Proof.
  destruct (C74_scalable_bins 2 1 2 [2%R] ltac:(lia) ltac:(lra) ltac:(reflexivity)) as (N & h0 & h & s & hi & c & E0 & E & _ & _ & Eh & _ & _ & _ & F & _); [repeat constructor; lra|].
  exists N, h0, h, hi. split; [exact E0|]. split; [destruct (lnew_ok 2 1 2 true ltac:(lia) ltac:(lra)) as (h1 & c1 & E1 & (_ & E2 & _) & _); congruence|]. split; [apply (E N (le_n N))|]. split; [exact Eh|]. inversion_clear F. lra.
Qed.
Print Assumptions C74_reset_refuted.

(** A concrete history: range 1..4 in two bins, samples 1, 2 and 3. *)
Example C74_nonvacuous : exists h, log_fed [1; 2; 3]%R h /\ exists s c, l_small h = RFin s /\ l_scaling h = RFin c /\ (0 < s)%R /\ (0 < c)%R /\ zlsum (l_bins h) = 3.
Proof.
  destruct (C74_scalable_bins 2 1 4 [1; 2; 3]%R ltac:(lia) ltac:(lra) ltac:(reflexivity)) as (N & h0 & h & s & hi & c & E0 & E & _); [repeat constructor; lra|].
  assert (F : log_fed [1; 2; 3]%R h) by (split; [reflexivity|]; exists 2, 1%R, 4%R, true, N, h0; split; [lia|split; [lra|split; [exact E0|apply (E N (le_n N))]]]).
  exists h. split; [exact F|]. destruct (log_fed_facts _ _ F) as (s' & c' & Q1 & Q2 & Q3 & Q4 & _ & _ & Q5 & _). exists s', c'. auto 9.
Qed.
(** The fixed range 1..4 in two bins has its inner end at 2: bins of [1, 2) and [2, 4). *)
Example C74_fixed_nonvacuous : exists h0 h, l_new reals rlog 2 (RFin 1) (RFin 4) false = Ok h0 /\ l_adds reals rlog rexp 0 h0 (map RFin [1 / 2; 3 / 2; 2; 3; 8])%R = Ok h /\ l_bins h = [2; 3].
Proof.
  assert (L4 : (0 < ln 4)%R) by (rewrite <- ln_1; apply ln_increasing; lra).
  assert (Lx : forall x, (0 < x <= 8)%R -> (IZR (2 * ((2 + 1) / 2)) * ln (x / 1) < IZR (2 ^ 32) * ln (4 / 1))%R).
  { intros x X. change (2 * ((2 + 1) / 2)) with 2. unfold Rdiv. rewrite Rinv_1, !Rmult_1_r. assert (ln x <= ln (4 * 4))%R by (destruct (Req_EM_T x (4 * 4)) as [->|Nx]; [lra|left; apply ln_increasing; lra]). rewrite ln_mult in H by lra. assert (ln 4 * 4 < IZR (2 ^ 32) * ln 4)%R; [|lra]. rewrite Rmult_comm. apply Rmult_lt_compat_r; [exact L4|]. apply IZR_lt. reflexivity. }
  destruct (C74_fixed_bins 2 1 4 [1 / 2; 3 / 2; 2; 3; 8]%R 0%nat ltac:(lia) ltac:(lra) ltac:(reflexivity)) as (h0 & h & c & E0 & E & L & _ & _ & C & EH & Cn).
  { repeat constructor; try lra; apply Lx; lra. }
  exists h0, h. split; [exact E0|]. split; [exact E|]. change (2 * ((2 + 1) / 2)) with 2 in L. destruct (l_bins h) as [|a [|b [|d r]]]; cbn [length] in L; try lia.
  assert (E2 : ledge 1 c 1 = 2%R).
  { cbn [length] in EH. assert (P : (0 < ledge 1 c 1)%R) by (apply ledge_pos; lra). assert (Q : (ledge 1 c 1 * ledge 1 c 1 = 4)%R) by (rewrite EH; unfold ledge; rewrite !Rmult_1_l, <- exp_plus; f_equal; cbn [INR]; field; lra). nra. }
  f_equal; [|f_equal].
  - rewrite (Cn 0%nat a eq_refl). unfold rcount, lbin_clamped. cbn [length Nat.eqb orb andb]. rewrite E2. cbn [filter]. repeat match goal with |- context[rle ?x ?y] => first [rewrite (proj2 (rle_iff x y)) by lra | rewrite (proj2 (rle_false x y)) by lra] end. reflexivity.
  - rewrite (Cn 1%nat b eq_refl). unfold rcount, lbin_clamped. cbn [length Nat.eqb orb andb]. rewrite E2. cbn [filter]. repeat match goal with |- context[rle ?x ?y] => first [rewrite (proj2 (rle_iff x y)) by lra | rewrite (proj2 (rle_false x y)) by lra] end. reflexivity.
Qed.
(** Functions that meet the hypotheses of the theorems about doubles. *)
Example C74_double_nonvacuous : exists h, l_new ieee (fun _ => of_Z 1) 4 (of_Z 1) (of_Z 2) true = Ok h /\ is_nan (l_scaling h) = false /\ is_finite (of_Z 1) = true /\ exists h1, l_adds ieee (fun _ => of_Z 1) (fun x => x) 0 h [of_Z 1] = Ok h1.
Proof. eexists. split; [reflexivity|]. split; [vm_compute; reflexivity|]. split; [vm_compute; reflexivity|].
  match goal with |- exists h1, ?t = Ok h1 => assert (X : match t with Ok _ => true | _ => false end = true) by (vm_compute; reflexivity); destruct t; [eauto|discriminate..] end.
Qed.

(** C75: every (index, data) pair, whatever the signs, is counted in the bin of its index and
    its data is added to the sum of that bin and to the statistics. *)
Theorem C75_bins : forall bins_in small high (l : list (R * R)),
  0 < bins_in < 2 ^ 31 -> (0 < small < high)%R -> Z.of_nat (length l) < 2 ^ 64 ->
  Forall (fun p => fst p <= small \/ IZR (2 * ((bins_in + 1) / 2)) * ln (fst p / small) < IZR (2 ^ 32) * ln (high / small))%R l ->
  exists a0 a c,
    la_new reals rlog bins_in (RFin small) (RFin high) = Ok a0 /\ la_adds reals rlog a0 (map (fun p => (RFin (fst p), RFin (snd p))) l) = Ok a /\
    (0 < c)%R /\ high = ledge small c (length (l_bins (la_counts a))) /\ Z.of_nat (length (l_bins (la_counts a))) = 2 * ((bins_in + 1) / 2) /\
    (forall i n, nth_error (l_bins (la_counts a)) i = Some n -> n = rcount (lbin_clamped small c (length (l_bins (la_counts a))) i) (map fst l)) /\
    (forall i, 0 <= i < 2 * ((bins_in + 1) / 2) -> la_value reals a i = Ok (RFin (rtotal (lbin_clamped small c (length (l_bins (la_counts a))) (Z.to_nat i)) l))) /\
    l_base (la_counts a) = fold_left (st_add reals) (map (fun p => RFin (snd p)) l) (st_new reals).
Proof.
  intros bins_in small high l B S L P. destruct (laccum_new bins_in small high B S) as (a0 & h & c & E & _ & R & B0 & L0).
  pose proof R as ((_ & _ & _ & _ & C & EH & _) & _).
  assert (Ec : ln (high / small) = (IZR (2 * ((bins_in + 1) / 2)) / c)%R) by (rewrite EH, ledge_ln by (exact C || lra); rewrite INR_IZR_INZ, L0; reflexivity).
  assert (Hn : (0 < IZR (2 * ((bins_in + 1) / 2)))%R) by (apply IZR_lt; Z.to_euclidean_division_equations; lia).
  destruct (laccum_adds l a0 small high c [] R ltac:(cbn [length]; lia)) as (a & O & R' & B' & L').
  { eapply Forall_impl; [|exact P]. cbn. intros x [X|X2]; [left; exact X|right]. rewrite Ec in X2. apply (Rmult_lt_reg_l (IZR (2 * ((bins_in + 1) / 2)) / c)); [apply Rdiv_lt_0_compat; assumption|].
    replace (IZR (2 * ((bins_in + 1) / 2)) / c * (c * ln (fst x / small)))%R with (IZR (2 * ((bins_in + 1) / 2)) * ln (fst x / small))%R by (field; lra). eapply Rlt_le_trans; [exact X2|right; apply Rmult_comm]. }
  exists a0, a, c. split; [exact E|]. split; [exact O|]. split; [exact C|]. destruct R' as ((E1 & E2 & E3 & S' & C' & EH' & (m & Lm & Nm & Pm & NB) & SC' & Ct) & LV & Sm). split; [exact EH'|]. split; [rewrite L'; exact L0|]. split; [exact Ct|]. split; [|rewrite B', B0; reflexivity].
  intros i Hi. unfold la_value. replace (i <=? l_num (la_counts a)) with true by lia. cbn [invariant bind]. unfold zget, get. replace (0 <=? i) with true by lia.
  destruct (nth_error (la_vals a) (Z.to_nat i)) as [y|] eqn:Q; [rewrite (Sm _ _ Q); reflexivity|]. apply nth_error_None in Q. change (@length rnum (la_vals a)) with (@length reals (la_vals a)) in Q. rewrite LV in Q. lia.
Qed.
Print Assumptions C75_bins.
(** value() accepts one index too many. *)
Theorem C75_value_off_by_one_refuted : forall bins_in small high a, 0 < bins_in < 2 ^ 31 -> (0 < small < high)%R -> la_new reals rlog bins_in (RFin small) (RFin high) = Ok a -> la_value reals a (2 * ((bins_in + 1) / 2)) = UB.
Proof.
  intros bins_in small high a B S E. destruct (laccum_new bins_in small high B S) as (a0 & h & c & E0 & _ & ((_ & _ & _ & _ & _ & _ & (m & Lm & Nm & Pm & NB) & _) & LV & _) & _ & L0). assert (a0 = a) by congruence. subst a0.
  unfold la_value. replace (_ <=? l_num (la_counts a)) with true by lia. cbn [invariant bind]. unfold zget, get. replace (0 <=? 2 * ((bins_in + 1) / 2)) with true by lia. rewrite (proj2 (nth_error_None _ _)); [reflexivity|].
  change (@length rnum (la_vals a)) with (@length reals (la_vals a)). rewrite LV. lia.
Qed.
Print Assumptions C75_value_off_by_one_refuted.
(** Where StatsHistogramLog aborts on a value that is not positive, this one counts it. *)
Theorem C75_nonpositive_refuted : forall bins_in small high x a h fuel, 0 < bins_in < 2 ^ 31 -> (0 < small < high)%R -> (x <= 0)%R -> la_new reals rlog bins_in (RFin small) (RFin high) = Ok a -> l_new reals rlog bins_in (RFin small) (RFin high) false = Ok h ->
  l_add reals rlog rexp fuel h (RFin x) = Abort /\ exists a', la_add reals rlog a (RFin x) (RFin x) = Ok a' /\ nth_error (l_bins (la_counts a')) 0 = Some 1.
Proof.
  intros bins_in small high x a h fuel B S X E Eh. split; [apply (C74_refused fuel h x 0 1 1 true X); auto|].
  destruct (laccum_new bins_in small high B S) as (a0 & h' & c & E0 & _ & R & _ & L0). assert (a0 = a) by congruence. subst a0.
  destruct (laccum_add a small high c [] x x R ltac:(reflexivity)) as (a' & O & R' & _ & L'); [left; lra|]. exists a'. split; [exact O|]. destruct R' as ((_ & _ & _ & S' & C' & _ & (m & Lm & Nm & Pm & NB) & _ & Ct) & _).
  destruct (nth_error (l_bins (la_counts a')) 0) as [n|] eqn:Q; [|apply nth_error_None in Q; lia]. rewrite (Ct _ _ Q). cbn [app map fst]. unfold rcount. cbn [filter].
  rewrite (lclamped_at small c (length (l_bins (la_counts a'))) x S' C' ltac:(lia) 0 ltac:(left; split; [lra|reflexivity]) 0 ltac:(lia)). reflexivity.
Qed.
Print Assumptions C75_nonpositive_refuted.
Example C75_nonvacuous : exists a0 a, la_new reals rlog 2 (RFin 1) (RFin 4) = Ok a0 /\ la_adds reals rlog a0 [(RFin 1, RFin 10); (RFin (-3), RFin 5); (RFin 4, RFin 7)] = Ok a /\ zlsum (l_bins (la_counts a)) = 3.
Proof.
  destruct (laccum_new 2 1 4 ltac:(lia) ltac:(lra)) as (a0 & h & c & E & _ & R & B0 & L0). pose proof R as ((_ & _ & _ & _ & C & EH & _) & _).
  assert (Ec : (c * ln (4 / 1) = 2)%R) by (rewrite EH at 1; rewrite ledge_ln by lra; rewrite INR_IZR_INZ, L0; change (2 * ((2 + 1) / 2)) with 2; field; lra).
  destruct (laccum_adds [(1, 10); (-3, 5); (4, 7)]%R a0 1 4 c [] R ltac:(reflexivity)) as (a & O & R' & _ & L').
  { constructor; [left; cbn; lra|]. constructor; [left; cbn; lra|]. constructor; [right; cbn [fst]; rewrite Ec; apply IZR_lt; reflexivity|constructor]. }
  exists a0, a. split; [exact E|]. split; [exact O|]. destruct R' as ((_ & _ & _ & S' & C' & EH' & (m & Lm & Nm & Pm & NB) & _ & Ct) & _). change (2 * ((2 + 1) / 2)) with 2 in L0.
  pose proof (fun x k H i => lclamped_at 1 c 2 x S' C' ltac:(lia) k H i) as U. 
  destruct (l_bins (la_counts a)) as [|p [|q [|r b]]]; cbn [length] in *; try lia. rewrite (Ct 0%nat p eq_refl), (Ct 1%nat q eq_refl). cbn [app map fst]. unfold rcount. cbn [filter].
  rewrite !(U 1%R 0%nat ltac:(left; split; [lra|reflexivity])), !(U (-3)%R 0%nat ltac:(left; split; [lra|reflexivity])) by lia.
  assert (E4 : (ledge 1 c 2 <= 4 < ledge 1 c 3)%R) by (split; [rewrite EH'; lra|rewrite EH'; apply ledge_lt; lra || lia]).
  rewrite !(U 4%R 1%nat ltac:(right; exists 2%nat; split; [exact E4|reflexivity])) by lia. reflexivity.
Qed.
