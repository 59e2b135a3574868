(** C72: mode and percentile of the uniform histogram, in exact arithmetic. *)
From Coq Require Import Reals.
From Coq Require Import List ZArith QArith Bool Lqa Lia.

From Flocq Require BinarySingleNaN.
From Verif Require Import Common Double64 Arith Stats_Model Double_Model Histogram_Spec Histogram_Model Histogram_Arr Histogram_Proofs Histogram_Props HistQuery_Model HistQuery_Proofs.
Import ListNotations.
Local Open Scope Q_scope.

(** [h] is a histogram, fixed or scalable, that was built and given the samples [xs]. *)
Definition fed_with (xs : list Q) (h : hist exact) : Prop :=
  (Z.of_nat (length xs) < 2 ^ 64)%Z /\ exists bins_in low high scalable fuel h0, (0 < bins_in < 2 ^ 31)%Z /\ low < high /\
  h_new exact bins_in (Fin low) (Fin high) scalable false = Ok h0 /\ h_adds exact fuel h0 (map Fin xs) = Ok h.

Lemma fed_facts : forall xs h, fed_with xs h -> exists lo w, bin_low h = Fin lo /\ bin_width h = Fin w /\ 0 < w /\ (0 < length (bins h))%nat /\
  num_bins h = Z.of_nat (length (bins h)) /\ nonneg (bins h) /\ zlsum (bins h) = Z.of_nat (length xs) /\ number (base h) = Z.of_nat (length xs) /\
  (forall k, (0 < k < length (bins h))%nat -> prefix (bins h) k = zcount (below (edge lo w k)) xs).
Proof.
  intros xs h (Lx & bins_in & low & high & sc & fuel & h0 & B & L & N & E).
  destruct (h_new_total exact bins_in (Fin low) (Fin high) sc false h0 ltac:(lia) N) as (T0 & _).
  assert (Lm : (0 + Z.of_nat (length (map Fin xs)) < 2 ^ 64)%Z) by (rewrite map_length; lia).
  destruct (h_adds_total exact fuel (map Fin xs) h0 0 h T0 Lm E) as (((S1 & S2 & _) & NN & T) & _).
  destruct (C33_total_count exact bins_in (Fin low) (Fin high) sc false fuel (map Fin xs) h0 h ltac:(lia) ltac:(rewrite map_length; lia) N E) as (Q1 & Q2 & Q3).
  assert (Cn : number (base h) = Z.of_nat (length xs)).
  { rewrite Q3. clear - Lx. assert (G : forall (l : list xnum) s, (0 <= number s)%Z -> (number s + Z.of_nat (length l) < 2 ^ 64)%Z -> number (fold_left (st_add exact) l s) = (number s + Z.of_nat (length l))%Z).
    { induction l as [|x l IH]; intros s P Q; cbn [fold_left length] in *; [lia|]. rewrite IH; cbn [st_add number]; rewrite Z.mod_small; lia. }
    rewrite G; rewrite ?map_length; cbn; lia. }
  destruct sc.
  - destruct (C33_scalable_bins bins_in low high xs B L Lx) as (M & h0' & h' & lo & hi & w & N' & A' & Lb & El & Eh & Ew & W & _ & F & C).
    assert (h0' = h0) by congruence. subst h0'. assert (h' = h).
    { pose proof (A' (Nat.max M fuel) ltac:(lia)) as X. pose proof (h_adds_mono exact _ _ (Nat.max M fuel) _ _ E ltac:(lia)) as Y. congruence. } subst h'.
    exists lo, w. repeat (split; [first [assumption | rewrite map_length in *; lia | lia]|]). intros k K. apply prefix_intervals; [assumption|assumption| |lia]. eapply Forall_impl; [|exact F]. cbn. tauto.
  - destruct (C33_fixed_bins bins_in low high xs fuel B L Lx) as (h0' & h' & w & N' & A' & Lb & El & Eh & Ew & W & _ & C).
    assert (h0' = h0) by congruence. subst h0'. assert (h' = h) by congruence. subst h'.
    exists low, w. repeat (split; [first [assumption | rewrite map_length in *; lia | lia]|]). intros k K. now apply prefix_clamped.
Qed.

(** mode: the middle of a bin that no other exceeds; of several the last. *)
Theorem C72_mode : forall xs h, fed_with xs h -> exists lo w k c m, bin_low h = Fin lo /\ bin_width h = Fin w /\
  h_mode exact h = Ok (Fin m) /\ m == (edge lo w k + edge lo w (S k)) / 2 /\ nth_error (bins h) k = Some c /\
  forall j x, nth_error (bins h) j = Some x -> (x <= c)%Z /\ ((k < j)%nat -> (x < c)%Z).
Proof.
  intros xs h F. destruct (fed_facts _ _ F) as (lo & w & El & Ew & W & L & En & _). destruct (mode_ok h lo w El Ew En L) as (k & c & m & E & Em & Ek & H).
  exists lo, w, k, c, m. repeat (split; [assumption|]). split; [rewrite Em, edge_S; field|]. auto.
Qed.
Print Assumptions C72_mode.

(** percentile(p): an assertion-free result in a bin that holds samples (beyond its end by at
    most the tolerance of Double::gt): fewer than p of all samples are below the bin, and at
    least p of them, up to that tolerance, are below its end. The only other result is 0,
    when the first bin is empty and p is 0 or within the tolerance. *)
Theorem C72_percentile : forall xs h p eps, fed_with xs h -> 0 <= p <= 1 -> 0 <= eps ->
  let n := inject_Z (Z.of_nat (length xs)) in
  exists lo w k c r, bin_low h = Fin lo /\ bin_width h = Fin w /\ h_percentile exact (Fin eps) h (Fin p) = Ok (Fin r) /\ nth_error (bins h) k = Some c /\
    ((c = 0%Z /\ k = 0%nat /\ r == 0 /\ (p * n == 0 \/ p * n < eps)) \/
     ((0 < c)%Z /\ edge lo w k <= r <= edge lo w (S k) + eps * n * w /\
      (k = 0%nat \/ inject_Z (zcount (below (edge lo w k)) xs) < p * n) /\
      (S k = length (bins h) \/ p * n <= inject_Z (zcount (below (edge lo w (S k))) xs) * (1 + eps)))).
Proof.
  intros xs h p eps F P He n. destruct (fed_facts _ _ F) as (lo & w & El & Ew & W & L & En & NN & S1 & Cn & Hk).
  destruct (percentile_ok h lo w _ p eps El Ew L NN S1 Cn (proj1 F) W P He) as (k & c & r & E & Ek & D).
  exists lo, w, k, c, r. repeat (split; [assumption|]). destruct D as [D|(D1 & D2 & D3 & D4 & D5 & _)]; [left; exact D|right].
  assert (Lk : (k < length (bins h))%nat) by (apply nth_error_Some; congruence). split; [exact D1|]. split; [split; assumption|]. split.
  - destruct k as [|k]; [now left|]. right. rewrite <- Hk by lia. apply D4. lia.
  - destruct (Nat.eq_dec (S k) (length (bins h))) as [|Nk]; [now left|]. right. rewrite <- Hk by lia. exact D5.
Qed.
Print Assumptions C72_percentile.
(** With the tolerance off a larger p never gives a smaller result (the first bin being used). *)
Theorem C72_monotone : forall xs h p q r s c0, fed_with xs h -> 0 <= p <= q -> q <= 1 -> nth_error (bins h) 0 = Some c0 -> (0 < c0)%Z ->
  h_percentile exact (Fin 0) h (Fin p) = Ok (Fin r) -> h_percentile exact (Fin 0) h (Fin q) = Ok (Fin s) -> r <= s.
Proof.
  intros xs h p q r s c0 F P Q1 E0 C0 Er Es. destruct (fed_facts _ _ F) as (lo & w & El & Ew & W & L & En & NN & S1 & Cn & Hk).
  destruct (percentile_ok h lo w _ p 0 El Ew L NN S1 Cn (proj1 F) W ltac:(lra) ltac:(lra)) as (k & c & r' & E & Ek & D).
  destruct (percentile_ok h lo w _ q 0 El Ew L NN S1 Cn (proj1 F) W ltac:(lra) ltac:(lra)) as (j & d & s' & E' & Ej & D').
  assert (r' = r) by congruence. assert (s' = s) by congruence. subst r' s'.
  destruct D as [(D1 & D2 & _)|(D1 & D2 & D3 & D4 & D5 & D6)]; [subst; rewrite Ek in E0; injection E0 as <-; lia|].
  destruct D' as [(G1 & G2 & _)|(G1 & G2 & G3 & G4 & G5 & G6)]; [subst; rewrite Ej in E0; injection E0 as <-; lia|].
  set (n := inject_Z (Z.of_nat (length xs))) in *. assert (Hn : 0 <= n) by (unfold n; change 0 with (inject_Z 0); rewrite <- Zle_Qle; lia). assert (M : p * n <= q * n) by nra.
  destruct (Nat.lt_trichotomy k j) as [H|[H|H]].
  - assert (edge lo w (S k) <= edge lo w j) by (apply edge_mono; [lra|lia]). lra.
  - subst j. assert (d = c) by congruence. subst d. rewrite D6, G6. assert (0 < inject_Z c) by (change 0 with (inject_Z 0); rewrite <- Zlt_Qlt; lia).
    assert ((p * n - inject_Z (prefix (bins h) k)) / inject_Z c <= (q * n - inject_Z (prefix (bins h) k)) / inject_Z c) by (unfold Qdiv; apply Qmult_le_compat_r; [lra|apply Qlt_le_weak, Qinv_lt_0_compat; assumption]). nra.
  - exfalso. specialize (D4 ltac:(lia)). assert (prefix (bins h) (S j) <= prefix (bins h) k)%Z by (apply prefix_mono; [assumption|lia]). assert (inject_Z (prefix (bins h) (S j)) <= inject_Z (prefix (bins h) k)) by (rewrite <- Zle_Qle; assumption). lra.
Qed.
Print Assumptions C72_monotone.
(** With doubles: percentile never reads outside the bins and never aborts, for up to 2^53
    samples, whatever the epsilon and the rounding. *)
Theorem C72_double_safe : forall bins_in (low high : double) scalable growable fuel (xs : list double) h0 (h : hist ieee) eps p,
  (0 < bins_in < 2 ^ 31)%Z -> (Z.of_nat (length xs) < 2 ^ 53)%Z -> h_new ieee bins_in low high scalable growable = Ok h0 -> h_adds ieee fuel h0 xs = Ok h ->
  BinarySingleNaN.is_finite p = true -> (0 <= BinarySingleNaN.B2R p <= 1)%R -> exists r, h_percentile ieee eps h p = Ok r.
Proof.
  intros bins_in low high sc gr fuel xs h0 h eps p B L N E F P.
  destruct (h_new_total ieee bins_in low high sc gr h0 ltac:(lia) N) as (T0 & _).
  assert (L' : (Z.of_nat (@length (num ieee) xs) < 2 ^ 64)%Z) by (change (@length (num ieee) xs) with (@length double xs); lia).
  destruct (h_adds_total ieee fuel xs h0 0 h T0 L' E) as (((S1 & S2 & _) & NN & T) & Eb).
  destruct (C33_total_count ieee bins_in low high sc gr fuel xs h0 h ltac:(lia) L' N E) as (Q1 & Q2 & Q3).
  assert (Cn : number (base h) = Z.of_nat (length xs)).
  { rewrite Q3. clear - L. assert (G : forall (l : list double) (s : stats ieee), (0 <= number s)%Z -> (number s + Z.of_nat (length l) < 2 ^ 64)%Z -> number (fold_left (st_add ieee) l s) = (number s + Z.of_nat (length l))%Z).
    { induction l as [|x l IH]; intros s P Q; cbn [fold_left length] in *; [lia|]. rewrite IH; cbn [st_add number]; rewrite Z.mod_small; lia. }
    rewrite G; cbn [number st_new]; lia. }
  apply percentile_safe.
  - eapply bins_nonempty; [exact B|exact L'|exact N|exact E].
  - assumption.
  - rewrite Q1. exact L'.
  - apply double_in_range; assumption.
  - unfold st_count. rewrite Cn, Q1. apply double_target; [assumption|assumption|]. change (@length (num ieee) xs) with (@length double xs). split; [apply Nat2Z.is_nonneg|exact L].
Qed.
Print Assumptions C72_double_safe.
(** Any other p is refused. *)
Theorem C72_outside : forall h p eps, (p < 0 \/ 1 < p) -> h_percentile exact (Fin eps) h (Fin p) = Abort.
Proof.
  intros h p eps P. unfold h_percentile. cbn [nle exact of_int xle]. change (inject_Z 0) with 0. change (inject_Z 1) with 1.
  destruct (Qle_bool_spec' 0 p); [|reflexivity]. destruct (Qle_bool_spec' p 1); [|reflexivity]. exfalso. lra.
Qed.
Print Assumptions C72_outside.
(** percentile(0) of a histogram whose first bin is empty is 0, which need not be in its
    range. *)
Theorem C72_zero_refuted : forall xs h eps, fed_with xs h -> 0 <= eps -> nth_error (bins h) 0 = Some 0%Z -> exists r, h_percentile exact (Fin eps) h (Fin 0) = Ok (Fin r) /\ r == 0.
Proof.
  intros xs h eps F He E0. destruct (C72_percentile xs h 0 eps F ltac:(lra) He) as (lo & w & k & c & r & _ & _ & E & Ek & D). exists r. split; [exact E|].
  destruct D as [(_ & _ & D & _)|(D1 & _ & [D3|D3] & _)]; [exact D|subst k; rewrite Ek in E0; injection E0 as ->; lia|].
  exfalso. assert (0 <= inject_Z (zcount (below (edge lo w k)) xs)) by (change 0 with (inject_Z 0); rewrite <- Zle_Qle; unfold zcount; lia). lra.
Qed.
Print Assumptions C72_zero_refuted.
Example C72_nonvacuous : exists h0 h, h_new exact 4 (Fin (inject_Z 100)) (Fin (inject_Z 200)) true false = Ok h0 /\
  h_adds exact 9 h0 (map Fin (map inject_Z [130; 160; 160; 190; 205]%Z)) = Ok h /\ fed_with (map inject_Z [130; 160; 160; 190; 205]%Z) h /\
  bins h = [1; 3; 1; 0]%Z /\
  (exists r, h_percentile exact (Fin (1 # 1000)) h (Fin (1 # 2)) = Ok (Fin r) /\ r == 175) /\ (exists r, h_percentile exact (Fin (1 # 1000)) h (Fin 1) = Ok (Fin r) /\ r == 250) /\
  (exists m, h_mode exact h = Ok (Fin m) /\ m == 175).
Proof.
  eexists. eexists. split; [reflexivity|]. split; [vm_compute; reflexivity|]. split.
  { split; [reflexivity|]. exists 4%Z, (inject_Z 100), (inject_Z 200), true, 9%nat. eexists. split; [lia|]. split; [reflexivity|]. split; [reflexivity|vm_compute; reflexivity]. }
  split; [reflexivity|]. split; [|split]; eexists; (split; [vm_compute; reflexivity|reflexivity]).
Qed.
