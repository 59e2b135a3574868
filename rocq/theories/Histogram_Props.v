(** C33: the uniform histogram counts every sample once, in the right bin.
    C34: the histogram group. *)
From Coq Require Import List ZArith QArith Bool Lqa Lia.
From Verif Require Import Common Double64 Arith Stats_Spec Stats_Model Stats_Proofs Histogram_Spec Histogram_Model Histogram_Arr Histogram_Proofs HistGroup_Proofs.
Import ListNotations.
Local Open Scope Z_scope.

(** In every arithmetic (in particular IEEE doubles), mode and history: if the run does not
    abort, loop or have undefined behaviour, the bins sum to the number of samples. *)
Theorem C33_total_count : forall (A : arith) bins_in (low high : A) scalable growable fuel (l : list A) h0 h,
  bins_in < 2 ^ 31 -> Z.of_nat (length l) < 2 ^ 64 ->
  h_new A bins_in low high scalable growable = Ok h0 ->
  h_adds A fuel h0 l = Ok h ->
  zlsum (bins h) = Z.of_nat (length l) /\ Z.of_nat (length (bins h)) = num_bins h /\
  base h = fold_left (st_add A) l (st_new A).
Proof.
  intros A bins_in low high s g fuel l h0 h B L N E. destruct (h_new_total A bins_in low high s g h0 B N) as (T0 & B0).
  destruct (h_adds_total A fuel l h0 0 h T0 L E) as ((S & NN & T) & B'). destruct S as (S1 & S2 & _). repeat split; [exact T|lia|congruence].
Qed.
Print Assumptions C33_total_count.

(** Exact arithmetic, fixed range: no abort and no undefined behaviour; bin i counts exactly
    the samples of its interval, the first also those below and the last also those above. *)
Theorem C33_fixed_bins : forall bins_in low high (xs : list Q) fuel,
  0 < bins_in < 2 ^ 31 -> (low < high)%Q -> Z.of_nat (length xs) < 2 ^ 64 ->
  exists h0 h w,
    h_new exact bins_in (Fin low) (Fin high) false false = Ok h0 /\
    h_adds exact fuel h0 (map Fin xs) = Ok h /\
    Z.of_nat (length (bins h)) = 2 * ((bins_in + 1) / 2) /\
    bin_low h = Fin low /\ bin_high h = Fin high /\ bin_width h = Fin w /\ (0 < w)%Q /\ (edge low w (length (bins h)) == high)%Q /\
    bins_count_clamped low w (bins h) xs.
Proof.
  intros bins_in low high xs fuel HB LH NL.
  destruct (new_eq bins_in low high false false HB LH eq_refl) as (h0 & w & ON & W1 & W2 & W3 & W4 & W5 & W6 & W7 & W8 & W9).
  destruct (new_width bins_in low high w HB LH W4) as (V1 & V2 & V3 & V4 & V5).
  destruct (fixed_adds xs h0 low high w [] fuel) as (h & O & R & N).
  - unfold HF. rewrite W6, repeat_length. repeat split; auto; [rewrite W5; lia|].
    intros i c Ec. now apply (empty_counts (clamped low w (length (repeat 0 (Z.to_nat (even_bins bins_in)))))) in Ec.
  - rewrite W5. lia.
  - exact NL.
  - exists h0, h, w. destruct R as (E1 & E2 & E3 & W & EH & LP & NB & S & G & C). repeat split; auto.
    + rewrite <- NB, N, W5. reflexivity.
    + now symmetry.
Qed.
Print Assumptions C33_fixed_bins.

(** Exact arithmetic, scalable: the doubling loops terminate for every finite sample, every
    sample is inside the final range and bin i counts exactly the samples of its interval. *)
Theorem C33_scalable_bins : forall bins_in low high (xs : list Q),
  0 < bins_in < 2 ^ 31 -> (low < high)%Q -> Z.of_nat (length xs) < 2 ^ 64 ->
  exists N h0 h lo hi w,
    h_new exact bins_in (Fin low) (Fin high) true false = Ok h0 /\
    (forall fuel, (N <= fuel)%nat -> h_adds exact fuel h0 (map Fin xs) = Ok h) /\
    Z.of_nat (length (bins h)) = 2 * ((bins_in + 1) / 2) /\
    bin_low h = Fin lo /\ bin_high h = Fin hi /\ bin_width h = Fin w /\ (0 < w)%Q /\ (edge lo w (length (bins h)) == hi)%Q /\
    Forall (fun x => lo <= x /\ x < hi)%Q xs /\
    bins_count_intervals lo w (bins h) xs.
Proof.
  intros bins_in low high xs HB LH NL.
  destruct (new_eq bins_in low high true false HB LH eq_refl) as (h0 & w & ON & W1 & W2 & W3 & W4 & W5 & W6 & W7 & W8 & W9).
  destruct (new_width bins_in low high w HB LH W4) as (V1 & V2 & V3 & V4 & V5).
  destruct (scal_adds xs h0 low high w []) as (N & h & lo & hi & w' & O & R & SC & L).
  - unfold HR. rewrite W6, repeat_length. repeat split; auto; [rewrite W5; lia|].
    intros i c Ec. now apply (empty_counts (fun i => in_range (edge low w i) (edge low w (S i)))) in Ec.
  - unfold scal. rewrite W6, repeat_length. repeat split; auto. rewrite W5. exact V4.
  - exact NL.
  - exists N, h0, h, lo, hi, w'. destruct R as (E1 & E2 & E3 & W & EH & LP & NB & C & F). repeat split; auto.
    + intros fuel LF. now apply (h_adds_mono exact _ N).
    + rewrite L, W6, repeat_length, Z2Nat.id; [reflexivity|unfold even_bins in *; lia].
    + now symmetry.
Qed.
Print Assumptions C33_scalable_bins.

(** Exact arithmetic, growable: the same, for samples in [L, H] with at most about 2^29 bins
    between L and H. *)
Theorem C33_growable_bins : forall bins_in low high L H (xs : list Q) fuel,
  0 < bins_in < 2 ^ 31 -> (low < high)%Q -> Z.of_nat (length xs) < 2 ^ 64 ->
  (L <= low)%Q -> (high <= H)%Q -> Forall (fun x => L <= x /\ x <= H)%Q xs ->
  (- inject_Z half_max < L)%Q -> (H < inject_Z half_max)%Q ->
  let width := ((high - low) / inject_Z (2 * ((bins_in + 1) / 2)))%Q in
  (4 * (H - L) + 3 * width < inject_Z (2 ^ 31) * width)%Q ->
  exists h0 h lo hi w,
    h_new exact bins_in (Fin low) (Fin high) false true = Ok h0 /\
    h_adds exact fuel h0 (map Fin xs) = Ok h /\
    bin_low h = Fin lo /\ bin_high h = Fin hi /\ bin_width h = Fin w /\ (w == width)%Q /\ (0 < w)%Q /\ (edge lo w (length (bins h)) == hi)%Q /\
    Forall (fun x => lo <= x /\ x < hi)%Q xs /\
    bins_count_intervals lo w (bins h) xs.
Proof.
  intros bins_in low high L H xs fuel HB LH NL BL BH FX M1 M2 width BW.
  destruct (new_eq bins_in low high false true HB LH eq_refl) as (h0 & w & ON & W1 & W2 & W3 & W4 & W5 & W6 & W7 & W8 & W9).
  destruct (new_width bins_in low high w HB LH W4) as (V1 & V2 & V3 & V4 & V5).
  assert (EW : (w == width)%Q) by exact W4. rewrite <- EW in BW.
  destruct (grows_adds xs h0 low high w [] L H fuel) as (h & lo & hi & O & R & G & B); auto.
  - unfold HR. rewrite W6, repeat_length. repeat split; auto; [rewrite W5; lia|].
    intros i c Ec. now apply (empty_counts (fun i => in_range (edge low w i) (edge low w (S i)))) in Ec.
  - split; assumption.
  - unfold gbound. repeat split; try lra.
  - lra.
  - exists h0, h, lo, hi, w. destruct R as (E1 & E2 & E3 & W & EH & LP & NB & C & F). repeat split; auto. now symmetry.
Qed.
Print Assumptions C33_growable_bins.

(** The ends of the bins that binlow() and binhigh() report are those the counts are about,
    and in any arithmetic, doubles included, a bin ends where the next one begins. *)
Theorem C33_reported_edges :
  (forall (A : arith) (h : hist A) i, (0 <= i < 2 ^ 32 - 1)%Z -> binhigh A h i = binlow A h (i + 1)) /\
  (forall (h : hist exact) lo w i, bin_low h = Fin lo -> bin_width h = Fin w -> (Z.of_nat i < 2 ^ 32 - 1)%Z ->
     fin_eq (binlow exact h (Z.of_nat i)) (edge lo w i) /\ fin_eq (binhigh exact h (Z.of_nat i)) (edge lo w (S i))).
Proof.
  assert (A1 : forall (A : arith) (h : hist A) i, (0 <= i < 2 ^ 32 - 1)%Z -> binhigh A h i = binlow A h (i + 1)).
  { intros A h i H. unfold binhigh, binlow, u32. now rewrite Z.mod_small by lia. }
  split; [exact A1|]. intros h lo w i L W H. rewrite A1 by lia. unfold binlow. rewrite L, W. cbn [nadd nmul of_int exact xadd xmul].
  split; eexists; (split; [reflexivity|]); unfold edge; [reflexivity|]. replace (Z.of_nat (S i)) with (Z.of_nat i + 1)%Z by lia. reflexivity.
Qed.
Print Assumptions C33_reported_edges.

(** A growable histogram refuses samples too large to grow to: half of the largest double,
    (2^53 - 1) * 2^971, and more. *)
Theorem C33_growth_limit : forall (h : hist exact) fuel (v : Q) lo hi,
  is_growable h = true -> bin_low h = Fin lo -> bin_high h = Fin hi ->
  (inject_Z ((2 ^ 53 - 1) * 2 ^ 971) <= 2 * v /\ hi <= v \/ 2 * v <= - inject_Z ((2 ^ 53 - 1) * 2 ^ 971) /\ v < lo /\ lo <= hi)%Q ->
  h_add exact fuel h (Fin v) = Abort.
Proof.
  intros h fuel v lo hi G L H C. unfold h_add, grow, with_base. cbn [is_growable bin_low bin_high]. rewrite G, L, H. cbn [andb].
  assert (HM : forall x, (inject_Z ((2 ^ 53 - 1) * 2 ^ 971) <= 2 * x)%Q -> @nlt exact (Fin x) (@of_int exact half_max) = false).
  { intros x Hx. unfold half_max. cbn [of_int exact nlt xlt]. apply negb_false_iff, Qle_bool_iff.
    apply (Qmult_le_l _ _ 2 ltac:(reflexivity)). eapply Qle_trans; [|exact Hx]. unfold Qle, Qmult, inject_Z. cbn [Qnum Qden]. rewrite !Z.mul_1_r.
    change (2 ^ 971) with (2 ^ (1 + 970)). rewrite Z.pow_add_r by lia. change (2 ^ 1) with 2. lia. }
  destruct C as [(C1 & C2)|(C1 & C2 & C3)].
  - assert (E : @nle exact (Fin hi) (Fin v) = true) by (cbn; now apply Qle_bool_iff). rewrite E. rewrite orb_true_r.
    rewrite (HM v C1). reflexivity.
  - assert (E : @nle exact (Fin hi) (Fin v) = false).
    { cbn. destruct (Qle_bool hi v) eqn:Q; [|reflexivity]. apply Qle_bool_iff in Q. lra. }
    assert (F : @nlt exact (Fin v) (Fin lo) = true).
    { cbn. apply negb_true_iff. destruct (Qle_bool lo v) eqn:Q; [|reflexivity]. apply Qle_bool_iff in Q. lra. }
    rewrite E, F. cbn [orb]. change (@nopp exact (Fin v)) with (Fin (- v)). rewrite (HM (- v)%Q); [reflexivity|]. lra.
Qed.
Print Assumptions C33_growth_limit.
Example C33_growth_limit_ex : exists h, h_new exact 4 (Fin 0) (Fin 8) false true = Ok h /\ h_add exact 0 h (Fin (inject_Z (2 ^ 1023))) = Abort
  /\ match h_add exact 0 h (Fin 20) with Ok h' => num_bins h' | _ => 0 end = 11.
Proof.
  match goal with |- exists h, ?run = _ /\ _ => let r := eval vm_compute in run in match r with Ok ?x => exists x end end. split; [vm_compute; reflexivity|]. split; vm_compute; reflexivity.
Qed.

(** In double precision the bin index can reach num_bins although the sample is below the
    upper end: a fixed histogram of 6 bins over [0,1) given 1 - 2^-53 writes past its array. *)
Theorem C33_double_bin_out_of_bounds_refuted :
  let v := ddiv (of_Z (2 ^ 53 - 1)) (of_Z (2 ^ 53)) in
  nlt (a := ieee) v (of_Z 1) = true /\
  (let! h := h_new ieee 6 (of_Z 0) (of_Z 1) false false in sampleBin ieee h v) = Ok 6 /\
  (let! h := h_new ieee 6 (of_Z 0) (of_Z 1) false false in let! h' := h_add ieee 0 h v in Ok (bins h')) = UB.
Proof. repeat split; vm_compute; reflexivity. Qed.
Print Assumptions C33_double_bin_out_of_bounds_refuted.

(** A scalable histogram with low = high is accepted and the first sample outside it never
    returns. *)
Lemma stuck_high : forall (A : arith) fuel h (v : A), scale_high_once A h = Ok h -> nle (bin_high h) v = true -> scale_high A fuel h v = Fuel.
Proof. intros A. induction fuel as [|f IH]; intros h v E L; cbn [scale_high]; rewrite L; [reflexivity|]. rewrite E. cbn [bind]. now apply IH. Qed.
Theorem C33_scalable_empty_range_never_returns_refuted : exists h0,
  h_new ieee 2 (of_Z 0) (of_Z 0) true false = Ok h0 /\ forall fuel, h_add ieee fuel h0 (of_Z 1) = Fuel.
Proof.
  set (h0 := @mkHist ieee (st_new ieee) 2 (of_Z 0) (of_Z 0) (of_Z 0) [0; 0] true false).
  exists h0. split; [vm_cast_no_check (eq_refl (Ok h0))|]. intros fuel. unfold h_add.
  set (h1 := with_base ieee h0 (st_add ieee (base h0) (of_Z 1))).
  assert (G : grow ieee h1 (of_Z 1) = Ok h1) by (vm_cast_no_check (eq_refl (Ok h1))). rewrite G. cbn [bind].
  assert (E : scale ieee fuel h1 (of_Z 1) = Fuel).
  { unfold scale. assert (C : is_scalable h1 && (nlt (a := ieee) (of_Z 1) (bin_low h1) || nle (a := ieee) (bin_high h1) (of_Z 1)) = true) by (vm_compute; reflexivity).
    rewrite C. assert (SL : scale_low ieee fuel h1 (of_Z 1) = Ok h1) by (destruct fuel; vm_cast_no_check (eq_refl (Ok h1))). rewrite SL. cbn [bind].
    apply stuck_high; [vm_cast_no_check (eq_refl (Ok h1))|vm_compute; reflexivity]. }
  rewrite E. reflexivity.
Qed.
Print Assumptions C33_scalable_empty_range_never_returns_refuted.

(** Beyond the bound of [C33_growable_bins] the unsigned product 2*(f+1) wraps: over [0,2)
    with bins of width 1, the sample 2^31 is counted in the bin [3,4). *)
Theorem C33_growable_wraps_refuted :
  (let! h := h_new exact 2 (Fin 0) (Fin 2) false true in
   let! h' := h_add exact 0 h (Fin (inject_Z (2 ^ 31))) in Ok (bins h', num_bins h')) = Ok ([0; 0; 0; 1], 4).
Proof. vm_compute. reflexivity. Qed.
Print Assumptions C33_growable_wraps_refuted.

(** UINT_MAX bins wrap to no bins at all: the first sample writes outside the array; and the
    index check of operator[] lets the index one past the end through. *)
Theorem C33_no_bins_refuted :
  (let! h := h_new exact (2 ^ 32 - 1) (Fin 0) (Fin 1) false false in let! h' := h_add exact 0 h (Fin 0) in Ok (bins h')) = UB.
Proof. vm_compute. reflexivity. Qed.
Print Assumptions C33_no_bins_refuted.
Theorem C33_index_check_off_by_one_refuted :
  (let! h := h_new exact 2 (Fin 0) (Fin 1) false false in h_index exact h 2) = UB /\
  (let! h := h_new exact 2 (Fin 0) (Fin 1) false false in h_index exact h 3) = Abort.
Proof. split; vm_compute; reflexivity. Qed.
Print Assumptions C33_index_check_off_by_one_refuted.

Lemma g_new_eq : forall (A : arith) buckets (r : list A) hs, 2 <= Z.of_nat (length r) -> make_hists A buckets r = Ok hs ->
  g_new A buckets r = Ok (mkGroup A (st_new A) hs r (st_new A) (st_new A)).
Proof. intros A buckets r hs L E. unfold g_new. replace (2 <=? Z.of_nat (length r)) with true by lia. rewrite E. reflexivity. Qed.

(** C34. A group over strictly increasing boundaries: for every sample sequence nothing
    aborts; low counts exactly the samples below the first boundary, high exactly those at or
    above the last, sub-histogram i exactly those in [r_i, r_{i+1}), in the right bins; and
    the counts add up to the number of samples. *)
Theorem C34_group_routes_each_sample : forall buckets (r : list Q) (xs : list Q) fuel,
  0 < buckets < 2 ^ 31 -> (2 <= length r)%nat -> increasing r -> Z.of_nat (length xs) < 2 ^ 64 ->
  exists g0 g r0 rn,
    g_new exact buckets (map Fin r) = Ok g0 /\ g_adds exact fuel g0 (map Fin xs) = Ok g /\
    nth_error r 0 = Some r0 /\ nth_error r (length r - 1) = Some rn /\
    length (histograms g) = (length r - 1)%nat /\
    st_count exact (g_low g) = zcount (below r0) xs /\
    st_count exact (g_high g) = zcount (at_least rn) xs /\
    (forall i h a b, nth_error (histograms g) i = Some h -> nth_error r i = Some a -> nth_error r (S i) = Some b ->
      st_count exact (base h) = zcount (in_range a b) xs /\
      exists w, bin_width h = Fin w /\ bins_count_clamped a w (bins h) (filter (in_range a b) xs)) /\
    st_count exact (g_base g) = Z.of_nat (length xs) /\
    st_count exact (g_low g) + zlsum (map (fun h => st_count exact (base h)) (histograms g)) + st_count exact (g_high g)
      = st_count exact (g_base g).
Proof.
  intros buckets r xs fuel HB LR INC NL.
  destruct (make_hists_ok buckets HB r INC) as (hs & O & L & A).
  destruct r as [|r0 rt]; [cbn in LR; lia|].
  destruct (nth_error (r0 :: rt) (length hs)) as [rn|] eqn:En; [|apply nth_error_None in En; cbn [length] in *; lia].
  set (g0 := mkGroup exact (st_new exact) hs (map Fin (r0 :: rt)) (st_new exact) (st_new exact)).
  destruct (g_adds_ok buckets HB xs g0 (r0 :: rt) r0 rn [] fuel INC) as (g & O2 & R & L2).
  - unfold GInv, g0. cbn [ranges histograms g_base g_low g_high]. repeat split; auto. cbn [length] in *. lia.
  - exact NL.
  - exists g0, g, r0, rn. cbn [app] in R. destruct R as (E1 & E2 & E3 & E4 & E5 & E6 & E7 & E8).
    assert (CNT : forall l, Z.of_nat (length l) <= Z.of_nat (length xs) -> st_count exact (fed l) = Z.of_nat (length l)).
    { intros l Hl. apply Rep_number; [apply fed_rep|lia]. }
    assert (CF : forall p, st_count exact (fed (filter p xs)) = zcount p xs).
    { intros p. apply CNT. pose proof (zcount_le p xs) as Z. unfold zcount in Z. lia. }
    assert (HS : forall i h a b, nth_error (histograms g) i = Some h -> nth_error (r0 :: rt) i = Some a -> nth_error (r0 :: rt) (S i) = Some b ->
      st_count exact (base h) = zcount (in_range a b) xs).
    { intros i h a b Nh Na Nb. destruct (E8 i h a b Nh Na Nb) as (w & _ & -> & _). apply CF. }
    split; [apply g_new_eq; [rewrite map_length; lia|exact O]|].
    split; [exact O2|]. split; [reflexivity|]. cbn [length] in *.
    split; [rewrite <- En; f_equal; lia|]. split; [lia|].
    split; [rewrite E6; apply CF|]. split; [rewrite E7; apply CF|].
    split; [intros i h a b Nh Na Nb; split; [now apply (HS i)|]; destruct (E8 i h a b Nh Na Nb) as (w & F & _); exists w; destruct F as (_ & _ & F3 & _ & _ & _ & _ & _ & _ & F10); split; assumption|].
    assert (EB : st_count exact (g_base g) = Z.of_nat (length xs)) by (rewrite E5; apply CNT; lia).
    split; [exact EB|]. rewrite EB, E6, E7, !CF.
    rewrite <- (below_above_range r0 rn xs).
    2: { destruct (length hs) as [|n] eqn:Ln; [cbn in En; injection En as <-; lra|]. apply Qlt_le_weak. apply (increasing_nth (r0 :: rt) 0 (S n)); auto. lia. }
    rewrite <- (counts_telescope rt r0 xs rn INC) by (rewrite <- En; f_equal; lia).
    f_equal. f_equal. f_equal. clear - HS E2. revert HS E2. generalize (histograms g) as gs. intros gs. revert r0 rt. 
    induction gs as [|h gs IH]; intros r0 rt HS E2.
    + destruct rt; [reflexivity|cbn in E2; lia].
    + destruct rt as [|r1 rt]; [cbn in E2; lia|]. cbn [map combine fst snd]. f_equal.
      * now apply (HS 0%nat).
      * apply IH; [|cbn [length] in *; lia]. intros i h' a b Nh Na Nb. apply (HS (S i)); assumption.
Qed.
Print Assumptions C34_group_routes_each_sample.

(** Each sample has exactly one destination. *)
Theorem C34_unique_destination : forall (r : list Q) (x r0 rn : Q), increasing r -> nth_error r 0 = Some r0 -> nth_error r (length r - 1) = Some rn ->
  (x < r0 /\ (forall i a b, nth_error r i = Some a -> nth_error r (S i) = Some b -> ~ (a <= x /\ x < b)))%Q \/
  (rn <= x /\ (forall i a b, nth_error r i = Some a -> nth_error r (S i) = Some b -> ~ (a <= x /\ x < b)))%Q \/
  (exists i, (exists a b, nth_error r i = Some a /\ nth_error r (S i) = Some b /\ a <= x /\ x < b) /\
     r0 <= x /\ x < rn /\ forall j a b, nth_error r j = Some a -> nth_error r (S j) = Some b -> a <= x /\ x < b -> j = i)%Q.
Proof.
  intros r x r0 rn INC E0 EN.
  assert (LE : forall i j a b, (i <= j)%nat -> nth_error r i = Some a -> nth_error r j = Some b -> (a <= b)%Q).
  { intros i j a b L Na Nb. destruct (Nat.eq_dec i j) as [->|N]; [assert (a = b) by congruence; subst; lra|].
    apply Qlt_le_weak. apply (increasing_nth r i j); auto. lia. }
  destruct (Qlt_le_dec x r0) as [A|A].
  - left. split; [exact A|]. intros i a b Na _ [P _]. specialize (LE 0%nat i r0 a ltac:(lia) E0 Na). lra.
  - destruct (Qlt_le_dec x rn) as [B|B].
    + right. right.
      assert (EX : exists i a b, nth_error r i = Some a /\ nth_error r (S i) = Some b /\ (a <= x /\ x < b)%Q).
      { clear - E0 EN A B. revert r0 E0 EN A. induction r as [|c r IH]; intros r0 E0 EN A; [discriminate|]. cbn in E0. injection E0 as ->.
        destruct r as [|d r]; [cbn in EN; injection EN as <-; lra|]. destruct (Qlt_le_dec x d) as [D|D].
        - exists 0%nat, r0, d. cbn. repeat split; auto.
        - destruct (IH d eq_refl) as (i & a & b & Na & Nb & P); [cbn [length] in *; replace (S (length r) - 1)%nat with (length r) by lia; replace (S (S (length r)) - 1)%nat with (S (length r)) in EN by lia; exact EN|exact D|].
          exists (S i), a, b. auto. }
      destruct EX as (i & a & b & Na & Nb & P1 & P2). exists i. split; [exists a, b; auto|]. split; [exact A|]. split; [exact B|].
      intros j a' b' Na' Nb' [Q1 Q2]. destruct (Nat.lt_trichotomy i j) as [L|[L|L]]; [|auto|].
      * specialize (LE (S i) j b a' ltac:(lia) Nb Na'). lra.
      * specialize (LE (S j) i b' a ltac:(lia) Nb' Na). lra.
    + right. left. split; [exact B|]. intros i a b _ Nb [_ P].
      assert (S i < length r)%nat by (apply nth_error_Some; congruence). specialize (LE (S i) (length r - 1)%nat b rn ltac:(lia) Nb EN). lra.
Qed.
Print Assumptions C34_unique_destination.

Example C33_example_scalable :
  (let! h := h_new exact 3 (Fin 0) (Fin 4) true false in
   let! h' := h_adds exact 9 h (map Fin [0; 1 # 2; 3; 9; -5 # 1]%Q) in Ok (bins h', num_bins h')) = Ok ([0; 1; 3; 1], 4).
Proof. vm_compute. reflexivity. Qed.
Example C33_example_growable :
  (let! h := h_new exact 2 (Fin 0) (Fin 2) false true in
   let! h' := h_adds exact 0 h (map Fin [0; 7 # 2; -1 # 2; 1]%Q) in Ok (bins h', num_bins h')) = Ok ([0; 0; 0; 1; 1; 1; 0; 1], 8).
Proof. vm_compute. reflexivity. Qed.
Example C33_example_growable_hyp :
  let width := ((2 - 0) / inject_Z (2 * ((2 + 1) / 2)))%Q in (4 * (100 - (-50 # 1)) + 3 * width < inject_Z (2 ^ 31) * width)%Q /\
  (- inject_Z half_max < -50 # 1)%Q /\ (100 < inject_Z half_max)%Q.
Proof. repeat split; vm_compute; reflexivity. Qed.
Example C33_example_double :
  (let! h := h_new ieee 4 (of_Z 0) (of_Z 8) true false in
   let! h' := h_adds ieee 5 h (map of_Z [0; 3; 7; 20]) in Ok (bins h')) = Ok [3; 0; 1; 0].
Proof. vm_compute. reflexivity. Qed.
Example C34_example :
  (let! g := g_new exact 2 (map Fin [0; 1; 10]%Q) in
   let! g' := g_adds exact 0 g (map Fin [-1 # 1; 0; 1 # 2; 1; 5; 10; 11]%Q) in
   Ok (st_count exact (g_low g'), map bins (histograms g'), st_count exact (g_high g'))) = Ok (1, [[1; 1]; [2; 0]], 2).
Proof. vm_compute. reflexivity. Qed.
