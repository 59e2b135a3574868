(** C73: the uniform histogram that also accumulates a value per bin. *)
From Coq Require Import List ZArith QArith Bool Lqa Lia.
From Verif Require Import Common Double64 Arith Stats_Model Histogram_Spec Histogram_Model Histogram_Arr Histogram_Proofs HistAccum_Spec HistAccum_Model HistAccum_Proofs.
Import ListNotations.
Local Open Scope Z_scope.

(** In every arithmetic (in particular IEEE doubles), for an even bin count and no growing: a
    run of add(index, data) succeeds exactly when a plain uniform histogram given the indexes
    succeeds; both then have the same range and the same counts, and the statistics are
    those of the data values. *)
Theorem C73_counts_as_uniform : forall (A : arith) n (low high : A) scalable fuel (l : list (A * A)) a0 h0,
  2 * n < 2 ^ 32 -> a_new A (2 * n) low high scalable false = Ok a0 -> h_new A (2 * n) low high scalable false = Ok h0 ->
  (forall h, h_adds A fuel h0 (map fst l) = Ok h -> exists a, a_adds A fuel a0 l = Ok a) /\
  (forall a, a_adds A fuel a0 l = Ok a -> exists h, h_adds A fuel h0 (map fst l) = Ok h /\
    bins (counts a) = bins h /\ num_bins (counts a) = num_bins h /\ bin_low (counts a) = bin_low h /\ bin_high (counts a) = bin_high h /\
    bin_width (counts a) = bin_width h /\ Z.of_nat (length (val_bins a)) = 2 * n /\
    base (counts a) = fold_left (st_add A) (map snd l) (st_new A)).
Proof.
  intros A n low high s fuel l a0 h0 B N E0.
  assert (P : 0 < 2 * n). { unfold h_new in E0. destruct (nle low high); [|discriminate]. destruct (0 <? 2 * n) eqn:P; [lia|discriminate]. }
  rewrite (a_new_even A n low high s false h0 E0) in N by lia. apply Ok_inj in N. subst a0.
  destruct (h_new_shape A _ _ _ _ _ _ E0) as (NB & Bs & L & G & R).
  set (a0 := mkAccum h0 (repeat (of_int 0) (Z.to_nat (2 * n)))).
  assert (LK0 : like A a0 h0) by (destruct h0; reflexivity). split.
  - intros h E. destruct (adds_conv A l fuel a0 h0 h LK0 G) as (a & O & _); [|exact E|exists a; exact O].
    unfold fits, a0. cbn [counts val_bins]. rewrite repeat_length, L, NB. f_equal. unfold u32. rewrite Z.mod_small by lia. Z.to_euclidean_division_equations; lia.
  - intros a E. destruct (adds_like A l fuel a0 h0 a LK0 G E) as (h & O & LK & B' & V).
    exists h. split; [exact O|]. rewrite LK. cbn [with_base bins num_bins bin_low bin_high bin_width].
    unfold a0 in B', V. cbn [counts val_bins] in B', V. rewrite repeat_length in V. repeat split; [lia|congruence].
Qed.
Print Assumptions C73_counts_as_uniform.

(** Exact arithmetic, scalable, even bin count: every run of add(index, data) returns, every
    index is inside the final range, and bin i counts exactly the samples whose index is in
    its interval and holds exactly the sum of their data. *)
Theorem C73_scalable : forall n low high (xs : list (Q * Q)),
  0 < 2 * n < 2 ^ 31 -> (low < high)%Q -> Z.of_nat (length xs) < 2 ^ 64 ->
  exists N a0 a lo hi w,
    a_new exact (2 * n) (Fin low) (Fin high) true false = Ok a0 /\
    (forall fuel, (N <= fuel)%nat -> a_adds exact fuel a0 (map (fun p => (Fin (fst p), Fin (snd p))) xs) = Ok a) /\
    Z.of_nat (length (bins (counts a))) = 2 * n /\ Z.of_nat (length (val_bins a)) = 2 * n /\
    bin_low (counts a) = Fin lo /\ bin_high (counts a) = Fin hi /\ bin_width (counts a) = Fin w /\ (0 < w)%Q /\ (edge lo w (Z.to_nat (2 * n)) == hi)%Q /\
    Forall (fun p => lo <= fst p /\ fst p < hi)%Q xs /\
    bins_count_intervals lo w (bins (counts a)) (map fst xs) /\
    (forall i, 0 <= i < 2 * n -> exists v, a_value exact a i = Ok (Fin v) /\
      (v == total_of (in_range (edge lo w (Z.to_nat i)) (edge lo w (S (Z.to_nat i)))) xs)%Q).
Proof.
  intros n low high xs HB LH NL.
  destruct (new_eq (2 * n) low high true false ltac:(lia) LH eq_refl) as (h0 & w & ON & W1 & W2 & W3 & W4 & W5 & W6 & W7 & W8 & W9).
  destruct (new_width (2 * n) low high w ltac:(lia) LH W4) as (V1 & V2 & V3 & V4 & V5).
  assert (EB : even_bins (2 * n) = 2 * n) by (unfold even_bins; Z.to_euclidean_division_equations; lia). rewrite EB in *.
  set (a0 := @mkAccum exact h0 (repeat (of_int 0) (Z.to_nat (2 * n)))).
  destruct (a_scal_adds xs a0 low high w []) as (N & a & lo & hi & w' & O & R & SC & L).
  - unfold AR, HR, a0. cbn [counts val_bins map]. rewrite W6, !repeat_length. repeat split; auto; [rewrite W5; lia| |].
    + intros i c Ec. now apply (empty_counts (fun i => in_range (edge low w i) (edge low w (S i)))) in Ec.
    + intros i x Ei. apply nth_repeat_any in Ei. subst x. apply zero_sum. intros y d [].
  - unfold scal, a0. cbn [counts]. rewrite W6, repeat_length. repeat split; auto. rewrite W5. exact V4.
  - exact NL.
  - exists N, a0, a, lo, hi, w'. cbn [app] in R. destruct R as ((E1 & E2 & E3 & W & EH & LP & NB & C & F) & LV & S).
    unfold a0 in L. cbn [counts] in L. rewrite W6, repeat_length in L. rewrite Forall_map in F. rewrite L in EH. repeat split; auto.
    + apply a_new_even; [exact ON|lia].
    + intros fuel LF. now apply (a_adds_mono exact _ N).
    + lia.
    + lia.
    + now symmetry.
    + intros i Hi. unfold a_value. replace (i <=? num_bins (counts a)) with true by lia. cbn [invariant bind].
      destruct (nth_error (val_bins a) (Z.to_nat i)) as [x|] eqn:Ei; [|apply nth_error_None in Ei; lia].
      destruct (S _ _ Ei) as (q & -> & Q). exists q. split; [|exact Q]. unfold zget, get. replace (0 <=? i) with true by lia. now rewrite Ei.
Qed.
Print Assumptions C73_scalable.

(** Exact arithmetic, not scalable, even bin count, growable or not: nothing aborts; the range
    stays; bin i counts the samples of its interval, the first also those below and the last
    also those above, and holds the sum of their data. *)
Theorem C73_fixed : forall n low high growable (xs : list (Q * Q)) fuel,
  0 < 2 * n < 2 ^ 31 -> (low < high)%Q -> Z.of_nat (length xs) < 2 ^ 64 ->
  exists a0 a w,
    a_new exact (2 * n) (Fin low) (Fin high) false growable = Ok a0 /\
    a_adds exact fuel a0 (map (fun p => (Fin (fst p), Fin (snd p))) xs) = Ok a /\
    Z.of_nat (length (bins (counts a))) = 2 * n /\ Z.of_nat (length (val_bins a)) = 2 * n /\
    bin_low (counts a) = Fin low /\ bin_high (counts a) = Fin high /\ bin_width (counts a) = Fin w /\ (0 < w)%Q /\ (edge low w (Z.to_nat (2 * n)) == high)%Q /\
    bins_count_clamped low w (bins (counts a)) (map fst xs) /\
    (forall i, 0 <= i < 2 * n -> exists v, a_value exact a i = Ok (Fin v) /\ (v == total_of (clamped low w (Z.to_nat (2 * n)) (Z.to_nat i)) xs)%Q).
Proof.
  intros n low high g xs fuel HB LH NL.
  destruct (new_eq (2 * n) low high false g ltac:(lia) LH ltac:(destruct g; reflexivity)) as (h0 & w & ON & W1 & W2 & W3 & W4 & W5 & W6 & W7 & W8 & W9).
  destruct (new_width (2 * n) low high w ltac:(lia) LH W4) as (V1 & V2 & V3 & V4 & V5).
  assert (EB : even_bins (2 * n) = 2 * n) by (unfold even_bins; Z.to_euclidean_division_equations; lia). rewrite EB in *.
  set (a0 := @mkAccum exact h0 (repeat (of_int 0) (Z.to_nat (2 * n)))).
  destruct (a_fixed_adds xs a0 low high w [] fuel) as (a & O & R & N).
  - unfold AF, HF, a0. cbn [counts val_bins map ungrow bin_low bin_high bin_width bins num_bins is_scalable is_growable]. rewrite W6, !repeat_length. repeat split; auto; [rewrite W5; lia| |].
    + intros i c Ec. now apply (empty_counts (clamped low w (length (repeat 0 (Z.to_nat (2 * n)))))) in Ec.
    + intros i x Ei. apply nth_repeat_any in Ei. subst x. apply zero_sum. intros y d [].
  - unfold a0. cbn [counts]. rewrite W5. lia.
  - exact NL.
  - exists a0, a, w. cbn [app] in R. destruct R as ((E1 & E2 & E3 & W & EH & LP & NB & _ & _ & C) & LV & S).
    cbn [ungrow bin_low bin_high bin_width bins num_bins] in *. unfold a0 in N. cbn [counts] in N.
    assert (L : length (bins (counts a)) = Z.to_nat (2 * n)) by lia. rewrite L in EH. repeat split; auto.
    + apply a_new_even; [exact ON|lia].
    + lia.
    + lia.
    + now symmetry.
    + intros i Hi. unfold a_value. replace (i <=? num_bins (counts a)) with true by lia. cbn [invariant bind].
      destruct (nth_error (val_bins a) (Z.to_nat i)) as [x|] eqn:Ei; [|apply nth_error_None in Ei; lia].
      destruct (S _ _ Ei) as (q & -> & Q). exists q. rewrite L in Q. split; [|exact Q]. unfold zget, get. replace (0 <=? i) with true by lia. now rewrite Ei.
Qed.
Print Assumptions C73_fixed.

(** reset() between two runs of a scalable histogram: the range reached by the first run is
    kept, and the bins then hold exactly the samples of the second. *)
Theorem C73_reset : forall n low high (xs ys : list (Q * Q)),
  0 < 2 * n < 2 ^ 31 -> (low < high)%Q -> Z.of_nat (length xs) < 2 ^ 64 -> Z.of_nat (length ys) < 2 ^ 64 ->
  exists N a0 a1 a2 a3 lo w,
    a_new exact (2 * n) (Fin low) (Fin high) true false = Ok a0 /\
    a_adds exact N a0 (map (fun p => (Fin (fst p), Fin (snd p))) xs) = Ok a1 /\
    a_reset exact a1 = Ok a2 /\ bin_low (counts a2) = bin_low (counts a1) /\ bin_high (counts a2) = bin_high (counts a1) /\
    base (counts a2) = st_reset exact (base (counts a1)) /\
    a_adds exact N a2 (map (fun p => (Fin (fst p), Fin (snd p))) ys) = Ok a3 /\
    bin_low (counts a3) = Fin lo /\ bin_width (counts a3) = Fin w /\ Forall (fun p => lo <= fst p /\ fst p < edge lo w (Z.to_nat (2 * n)))%Q ys /\
    bins_count_intervals lo w (bins (counts a3)) (map fst ys) /\
    (forall i, 0 <= i < 2 * n -> exists v, a_value exact a3 i = Ok (Fin v) /\
      (v == total_of (in_range (edge lo w (Z.to_nat i)) (edge lo w (S (Z.to_nat i)))) ys)%Q).
Proof.
  intros n low high xs ys HB LH NX NY.
  destruct (new_eq (2 * n) low high true false ltac:(lia) LH eq_refl) as (h0 & w & ON & W1 & W2 & W3 & W4 & W5 & W6 & W7 & W8 & W9).
  destruct (new_width (2 * n) low high w ltac:(lia) LH W4) as (V1 & V2 & V3 & V4 & V5).
  assert (EB : even_bins (2 * n) = 2 * n) by (unfold even_bins; Z.to_euclidean_division_equations; lia). rewrite EB in *.
  set (a0 := @mkAccum exact h0 (repeat (of_int 0) (Z.to_nat (2 * n)))).
  destruct (a_scal_adds xs a0 low high w []) as (N1 & a1 & lo1 & hi1 & w1 & O1 & R1 & SC1 & L1).
  - unfold AR, HR, a0. cbn [counts val_bins map]. rewrite W6, !repeat_length. repeat split; auto; [rewrite W5; lia| |].
    + intros i c Ec. now apply (empty_counts (fun i => in_range (edge low w i) (edge low w (S i)))) in Ec.
    + intros i x Ei. apply nth_repeat_any in Ei. subst x. apply zero_sum. intros y d [].
  - unfold scal, a0. cbn [counts]. rewrite W6, repeat_length. repeat split; auto. rewrite W5. exact V4.
  - exact NX.
  - destruct (a_reset_ok a1 lo1 hi1 w1 _ R1 SC1) as (a2 & w2 & O2 & R2 & SC2 & L2).
    destruct (a_scal_adds ys a2 lo1 hi1 w2 [] R2 SC2 NY) as (N3 & a3 & lo & hi & w3 & O3 & R3 & SC3 & L3).
    exists (Nat.max N1 N3), a0, a1, a2, a3, lo, w3. cbn [app] in R3. destruct R3 as ((E1 & E2 & E3 & W & EH & LP & NB & C & F) & LV & S).
    unfold a0 in L1. cbn [counts] in L1. rewrite W6, repeat_length in L1. assert (L : length (bins (counts a3)) = Z.to_nat (2 * n)) by lia.
    rewrite Forall_map, Forall_forall in F. rewrite L in EH.
    assert (RB : exists v, a2 = mkAccum (h_reset exact (counts a1)) v).
    { unfold a_reset in O2. destruct (zero_vals exact _ _ _) as [v| | |]; try discriminate. cbn [bind] in O2. apply Ok_inj in O2. now exists v. }
    destruct RB as (v & RB). repeat split; auto.
    + apply a_new_even; [exact ON|lia].
    + apply (a_adds_mono exact _ N1); [exact O1|lia].
    + rewrite RB. reflexivity.
    + rewrite RB. reflexivity.
    + rewrite RB. reflexivity.
    + apply (a_adds_mono exact _ N3); [exact O3|lia].
    + apply Forall_forall. intros p Hp. specialize (F p Hp). rewrite <- EH. exact F.
    + intros i Hi. unfold a_value. replace (i <=? num_bins (counts a3)) with true by lia. cbn [invariant bind].
      destruct (nth_error (val_bins a3) (Z.to_nat i)) as [x|] eqn:Ei; [|apply nth_error_None in Ei; lia].
      destruct (S _ _ Ei) as (q & -> & Q). exists q. split; [|exact Q]. unfold zget, get. replace (0 <=? i) with true by lia. now rewrite Ei.
Qed.
Print Assumptions C73_reset.

(** An odd bin count: the plain histogram rounds it up, but the value array is allocated with
    the count as given, and the constructor's reset writes past its end. *)
Theorem C73_odd_bins_refuted : forall (A : arith) n (low high : A) scalable growable h,
  0 < 2 * n + 1 < 2 ^ 32 - 1 -> h_new A (2 * n + 1) low high scalable growable = Ok h ->
  a_new A (2 * n + 1) low high scalable growable = UB.
Proof. intros A n low high s g h B E. now apply (a_new_odd A n low high s g h). Qed.
Print Assumptions C73_odd_bins_refuted.

(** A growable one does not grow: over [0,2) with bins of width 1 the index 3 is counted in
    the bin [1,2), where the plain growable histogram makes a bin for it. *)
Theorem C73_growable_refuted :
  (let! a := a_new exact 2 (Fin 0) (Fin 2) false true in
   let! a := a_add exact 0 a (Fin 3) (Fin 7) in Ok (bins (counts a), bin_high (counts a))) = Ok ([0; 1], Fin 2) /\
  (let! h := h_new exact 2 (Fin 0) (Fin 2) false true in
   let! h := h_add exact 0 h (Fin 3) in Ok (bins h)) = Ok [0; 0; 0; 1].
Proof. split; vm_compute; reflexivity. Qed.
Print Assumptions C73_growable_refuted.

(** value(numBins()) passes the check and reads past the array. *)
Theorem C73_value_off_by_one_refuted :
  (let! a := a_new exact 2 (Fin 0) (Fin 2) false false in a_value exact a 2) = UB /\
  (let! a := a_new exact 2 (Fin 0) (Fin 2) false false in a_value exact a 3) = Abort.
Proof. split; vm_compute; reflexivity. Qed.
Print Assumptions C73_value_off_by_one_refuted.

Example C73_example_scalable :
  (let! a := a_new exact 4 (Fin 0) (Fin 4) true false in
   let! a := a_adds exact 9 a (map (fun p => (Fin (fst p), Fin (snd p))) [(0, 10); (1 # 2, 20); (3, 5); (9, 7); (-5 # 1, 1)]%Q) in
   Ok (bins (counts a), map (fun v => match v with Fin q => Qred q | _ => 0%Q end) (val_bins a))) = Ok ([0; 1; 3; 1], [0; 1; 35; 7]%Q).
Proof. vm_compute. reflexivity. Qed.
Example C73_example_double :
  (let! a := a_new ieee 4 (of_Z 0) (of_Z 8) true false in
   let! a := a_adds ieee 5 a [(of_Z 0, of_Z 1); (of_Z 20, of_Z 2)] in Ok (bins (counts a))) = Ok [1; 0; 1; 0] /\
  (let! h := h_new ieee 4 (of_Z 0) (of_Z 8) true false in let! h := h_adds ieee 5 h [of_Z 0; of_Z 20] in Ok (bins h)) = Ok [1; 0; 1; 0].
Proof. split; vm_compute; reflexivity. Qed.
Example C73_example_odd : exists h, h_new exact 3 (Fin 0) (Fin 2) false false = Ok h.
Proof. eexists. reflexivity. Qed.
