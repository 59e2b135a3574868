(** C92: reset() and another_new() give an empty statistic with the configuration of the
    object they are called on. *)
From Coq Require Import Reals Lra.
From Coq Require Import List ZArith QArith Bool Lia ZifyBool ZifyNat.
From Verif Require Import Common CommonFacts Arith RealArith Stats_Model Histogram_Model Histogram_Arr HistAccum_Model LogHist_Model Series_Model Sequence_Model EMA_Model Group_Model Quantile_Model Fresh_Model Fresh_Spec Fresh_Proofs.
From Verif Require Import LogHist_Spec LogHist_Proofs.
Import ListNotations.
Local Open Scope Z_scope.

(** Fixed ranges, in every arithmetic and with whatever log() and exp() return: after any
    history reset() gives back the object as it was constructed, and another_new(), where
    the class has one, returns an equal object. *)
Theorem C92_fixed : forall (A : arith) (log_ exp_ : A -> A) fuel b ops o0 o,
  fixed_build b -> o_new A log_ b = Ok o0 -> o_run A log_ exp_ fuel o0 ops = Ok o ->
  o_reset A o = Ok o0 /\ class_of o = class_of o0 /\ (own_another_new (class_of o) -> another_new A log_ o = Ok o0).
Proof.
  intros A log_ exp_ fuel b ops o0 o F E R. pose proof (fixed_new A log_ b o0 F E) as I0. pose proof (fixed_run A log_ exp_ fuel ops o0 o0 o I0 I0 R) as I.
  split; [apply I|]. split; [destruct I as (_ & I); destruct o0, o; try contradiction; reflexivity|].
  intros C. rewrite (fixed_another A log_ o0 o I C). apply I.
Qed.
Print Assumptions C92_fixed.

(** what a new object reports *)
Theorem C92_new_is_empty : forall (A : arith) (log_ : A -> A) b o0,
  o_new A log_ b = Ok o0 ->
  (forall s, base_of o0 = Some s -> s = st_new A /\ st_count A s = 0) /\ Forall (fun c => c = 0) (counts_of o0) /\
  match b with
  | BUniform n lo hi _ _ | BUniformAccum n lo hi _ _ | BLog n lo hi _ | BLogAccum n lo hi => shape_of o0 = Some (lo, hi, 2 * (((n + 1) mod 2 ^ 32) / 2))
  | _ => True
  end.
Proof.
  intros A log_ b o0 E. assert (Z0 : forall n, Forall (fun c => c = 0) (repeat 0 n)) by (induction n; constructor; auto).
  destruct b; cbn [o_new] in E; try (inv_bind E); apply Ok_inj in E; subst o0; cbn [base_of counts_of shape_of];
    try (split; [intros s H; discriminate H || (injection H as <-; auto)|split; [constructor|exact I]]; fail).
  - unfold h_new in E0. inv_bind E0. inv_bind E0. inv_bind E0. apply Ok_inj in E0. subst a. cbn [h_reset base bins bin_low bin_high num_bins]. split; [intros s H; injection H as <-; auto|]. split; [apply Z0|reflexivity].
  - unfold a_new in E0. inv_bind E0. unfold h_new in E. inv_bind E. inv_bind E. inv_bind E. apply Ok_inj in E. subst a0. unfold a_reset in E0. inv_bind E0. apply Ok_inj in E0. subst a.
    cbn [counts h_reset base bins bin_low bin_high num_bins]. split; [intros s H; injection H as <-; auto|]. split; [apply Z0|reflexivity].
  - unfold l_new in E0. inv_bind E0. inv_bind E0. inv_bind E0. apply Ok_inj in E0. subst a. cbn [l_reset l_with_bins l_with_base l_base l_bins l_small l_high l_num]. split; [intros s H; injection H as <-; auto|]. split; [apply Z0|reflexivity].
  - unfold la_new in E0. inv_bind E0. unfold l_new in E. inv_bind E. inv_bind E. inv_bind E. apply Ok_inj in E. subst a0. apply Ok_inj in E0. subst a.
    cbn [la_reset la_counts l_reset l_with_bins l_with_base l_base l_bins l_small l_high l_num]. split; [intros s H; injection H as <-; auto|]. split; [apply Z0|reflexivity].
Qed.
Print Assumptions C92_new_is_empty.

(** Scalable uniform histograms, with exact arithmetic: after any history another_new()
    succeeds, and returns what reset() would make of the object: an empty histogram of the
    same class with the range and bins it has now. *)
Theorem C92_scalable : forall n lo hi scalable acc fuel ops o0 o,
  0 < n < 2 ^ 31 ->
  o_new exact (fun x => x) (if acc : bool then BUniformAccum n (Fin lo : exact) (Fin hi : exact) scalable false else BUniform n (Fin lo : exact) (Fin hi : exact) scalable false) = Ok o0 ->
  o_run exact (fun x => x) (fun x => x) fuel o0 (map to_fop ops) = Ok o ->
  exists o', another_new exact (fun x => x) o = Ok o' /\ o_reset exact o = Ok o' /\ class_of o' = class_of o0 /\ shape_of o' = shape_of o /\ shape_of o <> None.
Proof.
  intros n lo hi sc acc fuel ops o0 o B E R.
  assert (I : exists c m, keeps_inv exact ordered c m o0 /\ class_of o0 = c).
  { destruct acc; cbn [o_new] in E; inv_bind E; apply Ok_inj in E; subst o0.
    - destruct (a_new_shape exact _ _ _ _ _ _ B eq_refl E0) as (S & _ & L & H & LE & _). exists CUniformAccum, (num_bins (counts a)). split; [|reflexivity]. split; [reflexivity|]. split; [exact S|]. split; [reflexivity|].
      rewrite L, H. exists lo, hi. split; [reflexivity|]. split; [reflexivity|]. apply Qle_bool_iff. exact LE.
    - destruct (h_new_shape exact _ _ _ _ _ _ B eq_refl E0) as (S & _ & L & H & LE & _). exists CUniform, (num_bins a). split; [|reflexivity]. split; [reflexivity|]. split; [exact S|]. split; [reflexivity|].
      rewrite L, H. exists lo, hi. split; [reflexivity|]. split; [reflexivity|]. apply Qle_bool_iff. exact LE. }
  destruct I as (c & m & I & <-). pose proof (keeps_run exact _ _ ordered _ m fuel _ o0 o ordered_keeps I R) as (C & J). destruct o; try contradiction; destruct J as (S & N & H); pose proof (ordered_le _ _ H) as LE; cbn [another_new o_new o_reset].
  - exists (OUniform (h_reset exact h)). rewrite (h_new_even exact h S LE). split; [reflexivity|]. split; [reflexivity|]. split; [exact C|]. split; [reflexivity|discriminate].
  - rewrite (a_new_even exact a S LE), (a_reset_eq exact a S). eexists. split; [reflexivity|]. split; [reflexivity|]. split; [exact C|]. split; [reflexivity|discriminate].
Qed.
Print Assumptions C92_scalable.

(** The scalable logarithmic histogram, over the reals. *)
Inductive rop : Type := RAdd (x : R) | RReset.
Definition to_rop (o : rop) : fop reals := match o with RAdd x => FAdd (RFin x : reals) | RReset => FReset end.
Lemma HL_reset : forall h s hi c l, HL h s hi c l -> HL (l_reset reals h) s hi c [].
Proof.
  intros h s hi c l (E1 & E2 & E3 & S & C & EH & Sh & _ & _). unfold HL, l_reset, l_with_bins, l_with_base. cbn [l_small l_high l_scaling l_bins]. rewrite repeat_length.
  repeat (split; [assumption|]). split; [|split; [|constructor]].
  - destruct Sh as (m & Q). exists m. cbn [l_bins l_num]. now rewrite repeat_length.
  - intros i q Ec. apply Histogram_Proofs.nth_repeat0 in Ec. subst q. reflexivity.
Qed.
Lemma HL_run : forall ops fuel h s hi c l o, HL h s hi c l -> l_scalable h = true -> Z.of_nat (length l) + Z.of_nat (length ops) < 2 ^ 64 -> Forall (fun x => match x with RAdd x => 0 < x | RReset => True end)%R ops ->
  o_run reals rlog rexp fuel (OLog h) (map to_rop ops) = Ok o -> exists h' s' hi' c' l', o = OLog h' /\ HL h' s' hi' c' l' /\ l_scalable h' = true.
Proof.
  induction ops as [|x ops IH]; intros fuel h s hi c l o I SC B F E; cbn [map o_run] in E; [apply Ok_inj in E; subst o; exists h, s, hi, c, l; auto|].
  inversion_clear F as [|? ? X F']. cbn [length] in B. inv_bind E. destruct x as [x|]; cbn [to_rop o_step o_add o_reset] in E0.
  - destruct (l_add reals rlog rexp fuel h (RFin x)) as [h1| | |] eqn:E1; try discriminate. cbn [bind] in E0. apply Ok_inj in E0. subst a.
    destruct (lscal_add h s hi c l x I SC ltac:(lia) X) as (N & h2 & s2 & hi2 & c2 & O2 & I2 & SC2 & _).
    pose proof (l_add_mono reals rlog rexp N (Nat.max N fuel) h _ _ O2 ltac:(lia)) as M1. pose proof (l_add_mono reals rlog rexp fuel (Nat.max N fuel) h _ _ E1 ltac:(lia)) as M2.
    rewrite M1 in M2. apply Ok_inj in M2. subst h2. apply (IH fuel h1 s2 hi2 c2 (l ++ [x]) o I2 SC2); [rewrite app_length; cbn [length]; lia|exact F'|exact E].
  - apply Ok_inj in E0. subst a. apply (IH fuel (l_reset reals h) s hi c [] o (HL_reset _ _ _ _ _ I) SC); [cbn [length]; lia|exact F'|exact E].
Qed.
Theorem C92_log_scalable : forall n small high fuel ops o0 o,
  0 < n < 2 ^ 31 -> (0 < small < high)%R -> Z.of_nat (length ops) < 2 ^ 64 ->
  Forall (fun x => match x with RAdd x => 0 < x | RReset => True end)%R ops ->
  o_new reals rlog (BLog n (RFin small : reals) (RFin high : reals) true) = Ok o0 -> o_run reals rlog rexp fuel o0 (map to_rop ops) = Ok o ->
  exists o', another_new reals rlog o = Ok o' /\ o_reset reals o = Ok o' /\ class_of o' = CLog /\ shape_of o' = shape_of o /\ shape_of o <> None.
Proof.
  intros n small high fuel ops o0 o B S L F E R. destruct (lnew_ok n small high true B S) as (h & c & E1 & I & SC & _). cbn [o_new] in E. rewrite E1 in E. cbn [bind] in E. apply Ok_inj in E. subst o0.
  destruct (HL_run ops fuel h small high c [] o I SC ltac:(cbn [length]; lia) F R) as (h' & s & hi & c' & l & -> & J & SC'). exists (OLog (l_reset reals h')). cbn [another_new o_new o_reset].
  destruct J as (J1 & J2 & J3 & Sp & Cp & EH & (m & Lm & Nm & Pm & NB) & _ & _).
  assert (Q : l_new reals rlog (l_num h') (l_small h') (l_high h') (l_scalable h') = Ok (l_reset reals h')).
  { unfold l_new. rewrite J1, J2. replace (0 <? l_num h') with true by lia. cbn [invariant bind]. change (@of_int reals 0) with (RFin 0). rewrite rnlt, (proj2 (rle_false s 0)) by lra. cbn [negb invariant bind].
    assert (LE : (s <= hi)%R). { rewrite EH, <- (ledge_0 s c') at 1. apply ledge_mono; [exact Sp|exact Cp|lia]. }
    rewrite rnle, (proj2 (rle_iff s hi) LE). cbn [invariant bind].
    assert (U : 2 * (u32 (l_num h' + 1) / 2) = l_num h') by (unfold u32; rewrite Z.mod_small by lia; rewrite Nm; Z.to_euclidean_division_equations; lia). rewrite U.
    rewrite rndiv by lra. assert (HP : (0 < hi)%R) by (rewrite EH; now apply ledge_pos). rewrite rlog_pos by (apply Rdiv_lt_0_compat; assumption).
    assert (LN : ln (hi / s) = (INR (length (l_bins h')) / c')%R) by (rewrite EH; now apply ledge_ln).
    assert (NP : (0 < INR (length (l_bins h')))%R) by (apply lt_0_INR; lia).
    change (@of_int reals (l_num h')) with (RFin (IZR (l_num h'))). rewrite LN, rndiv by (apply Rgt_not_eq; now apply Rdiv_lt_0_compat).
    replace (IZR (l_num h')) with (INR (length (l_bins h'))) by (rewrite INR_IZR_INZ; f_equal; lia). replace (INR (length (l_bins h')) / (INR (length (l_bins h')) / c'))%R with c' by (field; lra).
    unfold l_reset, l_with_bins, l_with_base. cbn [l_base l_num l_bins l_scaling l_high l_small l_scalable]. rewrite repeat_length, J1, J2, J3, Lm. do 3 f_equal. lia. }
  rewrite Q. split; [reflexivity|]. split; [reflexivity|]. split; [reflexivity|]. split; [reflexivity|discriminate].
Qed.
Print Assumptions C92_log_scalable.

(** The hypotheses are met: an accumulating histogram of [0,4) with two bins that is given
    1, 9 and 3 has the range [0,16) and a new one like it is empty; a group of two histograms. *)
Example C92_ex : exists o0 o o', o_new exact (fun x => x) (BUniformAccum 2 (Fin 0 : exact) (Fin 4 : exact) true false) = Ok o0 /\
  o_run exact (fun x => x) (fun x => x) 5 o0 (map to_fop [QAdd 1; QAdd 9; QAdd2 3 7]) = Ok o /\ another_new exact (fun x => x) o = Ok o' /\ o_reset exact o = Ok o' /\
  counts_of o = [2; 1] /\ counts_of o' = [0; 0] /\ exists hi, shape_of o' = Some (Fin 0 : exact, Fin hi : exact, 2) /\ hi == 16.
Proof.
  let r := eval vm_compute in (o_new exact (fun x => x) (BUniformAccum 2 (Fin 0 : exact) (Fin 4 : exact) true false)) in match r with Ok ?x => exists x end.
  match goal with |- exists o o', _ /\ ?run = _ /\ _ => let r := eval vm_compute in run in match r with Ok ?x => exists x end end.
  match goal with |- exists o', _ /\ _ /\ ?run = _ /\ _ => let r := eval vm_compute in run in match r with Ok ?x => exists x end end.
  repeat (split; [vm_compute; reflexivity|]). eexists. split; vm_compute; reflexivity.
Qed.
Example C92_ex_group : exists o0 o, @fixed_build exact (BHistogramGroup 2 [Fin 0 : exact; Fin 2 : exact; Fin 4 : exact]) /\
  o_new exact (fun x => x) (BHistogramGroup 2 [Fin 0 : exact; Fin 2 : exact; Fin 4 : exact]) = Ok o0 /\
  o_run exact (fun x => x) (fun x => x) 0 o0 (map to_fop [QAdd (-1); QAdd 1; QAdd 3; QReset; QAdd 7; QAdd 3]) = Ok o /\ o <> o0 /\ o_reset exact o = Ok o0.
Proof.
  let r := eval vm_compute in (o_new exact (fun x => x) (BHistogramGroup 2 [Fin 0 : exact; Fin 2 : exact; Fin 4 : exact])) in match r with Ok ?x => exists x end.
  match goal with |- exists o, _ /\ _ /\ ?run = _ /\ _ => let r := eval vm_compute in run in match r with Ok ?x => exists x end end.
  split; [vm_compute; split; reflexivity|]. split; [vm_compute; reflexivity|]. split; [vm_compute; reflexivity|]. split; [discriminate|vm_compute; reflexivity].
Qed.
Example C92_ex_log : exists fuel o0 o, o_new reals rlog (BLog 4 (RFin 1 : reals) (RFin 16 : reals) true) = Ok o0 /\
  o_run reals rlog rexp fuel o0 (map to_rop [RAdd 100]) = Ok o /\ counts_of o <> counts_of o0.
Proof.
  destruct (lnew_ok 4 1 16 true ltac:(lia) ltac:(lra)) as (h & c & E & I & SC & L & _). destruct (lscal_add h 1 16 c [] 100 I SC ltac:(cbn [length]; lia) ltac:(lra)) as (N & h' & s & hi & c' & E' & I' & _ & L').
  exists N, (OLog h), (OLog h'). cbn [o_new map to_rop o_run o_step o_add]. rewrite E, E'. split; [reflexivity|]. split; [reflexivity|]. cbn [counts_of].
  destruct (l_new_eq reals rlog rexp 4 _ _ true h ltac:(lia) E) as ((_ & _ & Z0) & _). assert (E2 : l_adds reals rlog rexp N h [RFin 100] = Ok h') by (cbn [l_adds]; rewrite E'; reflexivity).
  destruct (l_adds_total reals rlog rexp N [RFin 100 : reals] h 0 h' (proj1 (l_new_eq reals rlog rexp 4 _ _ true h ltac:(lia) E)) ltac:(cbn [length]; lia) E2) as ((_ & _ & Z1) & _).
  intros Q. rewrite Q, Z0 in Z1. cbn [length] in Z1. lia.
Qed.

(** "Reset to original values" (Stats.hpp:30) and "Put everything back to initial values"
    (StatsHistogram.hpp:127) are false of a scalable histogram: the range stays doubled. *)
Theorem C92_reset_range_refuted : exists o0 o o',
  o_new exact (fun x => x) (BUniform 2 (Fin 0 : exact) (Fin 4 : exact) true false) = Ok o0 /\
  o_run exact (fun x => x) (fun x => x) 5 o0 (map to_fop [QAdd 9]) = Ok o /\ o_reset exact o = Ok o' /\
  shape_of o0 = Some (Fin 0 : exact, Fin 4 : exact, 2) /\ exists hi, shape_of o' = Some (Fin 0 : exact, Fin hi : exact, 2) /\ hi == 16.
Proof.
  let r := eval vm_compute in (o_new exact (fun x => x) (BUniform 2 (Fin 0 : exact) (Fin 4 : exact) true false)) in match r with Ok ?x => exists x end.
  match goal with |- exists o o', _ /\ ?run = _ /\ _ => let r := eval vm_compute in run in match r with Ok ?x => exists x end end.
  match goal with |- exists o', _ /\ _ /\ ?run = _ /\ _ => let r := eval vm_compute in run in match r with Ok ?x => exists x end end.
  repeat (split; [vm_compute; reflexivity|]). eexists. split; vm_compute; reflexivity.
Qed.
Print Assumptions C92_reset_range_refuted.

(** A growable histogram can grow to an odd number of bins; the constructor rounds that up,
    so that the new histogram has other bins. *)
Theorem C92_grown_refuted : exists o0 o o',
  o_new exact (fun x => x) (BUniform 2 (Fin 0 : exact) (Fin 2 : exact) false true) = Ok o0 /\
  o_run exact (fun x => x) (fun x => x) 0 o0 (map to_fop [QAdd (13 # 2)]) = Ok o /\ another_new exact (fun x => x) o = Ok o' /\
  counts_of o = [0; 0; 0; 0; 0; 0; 1] /\ length (counts_of o') = 8%nat.
Proof.
  let r := eval vm_compute in (o_new exact (fun x => x) (BUniform 2 (Fin 0 : exact) (Fin 2 : exact) false true)) in match r with Ok ?x => exists x end.
  match goal with |- exists o o', _ /\ ?run = _ /\ _ => let r := eval vm_compute in run in match r with Ok ?x => exists x end end.
  match goal with |- exists o', _ /\ _ /\ ?run = _ /\ _ => let r := eval vm_compute in run in match r with Ok ?x => exists x end end.
  repeat (split; [vm_compute; reflexivity|]). vm_compute; reflexivity.
Qed.
Print Assumptions C92_grown_refuted.

(** The classes that inherit another_new() return a plain Stats. *)
Theorem C92_inherited_refuted : forall (A : arith) (log_ : A -> A) (o : obj A),
  ~ own_another_new (class_of o) -> exists o', another_new A log_ o = Ok o' /\ class_of o' = CStats /\ class_of o' <> class_of o.
Proof. intros A log_ o H. exists (OStats (st_new A)). destruct o; cbn [class_of own_another_new] in H; try (exfalso; exact (H I)); repeat split; discriminate. Qed.
Print Assumptions C92_inherited_refuted.
Example C92_ex_quantile : exists o, o_new exact (fun x => x) (BQuantile (1 # 10) 1000) = Ok o /\ class_of o = CQuantile /\ ~ own_another_new (class_of o).
Proof. cbn [o_new]. destruct (q_new (1 # 10) 1000 false) as [q| | |] eqn:E; [|vm_compute in E; discriminate E..]. exists (OQuantile q). split; [reflexivity|]. split; [reflexivity|intros []]. Qed.

(** reset() of a StatsSeriesGroup keeps the samples in the Stats it is. *)
Theorem C92_series_group_refuted : exists g0 g g',
  o_new exact (fun x => x) (BSeriesGroup (Fin 10 : exact)) = Ok (OSeriesGroup g0) /\
  o_run exact (fun x => x) (fun x => x) 3 (OSeriesGroup g0) (map to_fop [QAdd2 5 1]) = Ok (OSeriesGroup g) /\ o_reset exact (OSeriesGroup g) = Ok (OSeriesGroup g') /\
  st_count exact (Group_Model.g_base g0) = 0 /\ st_count exact (Group_Model.g_base g') = 1.
Proof.
  let r := eval vm_compute in (o_new exact (fun x => x) (BSeriesGroup (Fin 10 : exact))) in match r with Ok (OSeriesGroup ?x) => exists x end.
  match goal with |- exists g g', _ /\ ?run = _ /\ _ => let r := eval vm_compute in run in match r with Ok (OSeriesGroup ?x) => exists x end end.
  match goal with |- exists g', _ /\ _ /\ o_reset exact ?o = _ /\ _ => let r := eval vm_compute in (o_reset exact o) in match r with Ok (OSeriesGroup ?x) => exists x end end.
  repeat (split; [vm_compute; reflexivity|]). vm_compute; reflexivity.
Qed.
Print Assumptions C92_series_group_refuted.
