(** Proofs about mode and percentile. *)
From Coq Require Import List ZArith QArith Qabs Qminmax Bool Lqa Lia.
From Verif Require Import Common Arith Stats_Model Double_Model Double_Exact Histogram_Spec Histogram_Model Histogram_Arr Histogram_Proofs HistQuery_Model.
Import ListNotations.
Local Open Scope Z_scope.

(** The number of samples in the first [k] bins. *)
Definition prefix (b : list Z) (k : nat) : Z := zlsum (firstn k b).
Lemma prefix_S : forall b k x, nth_error b k = Some x -> prefix b (S k) = prefix b k + x.
Proof.
  unfold prefix. induction b as [|a b IH]; intros [|k] x E; cbn in E; try discriminate.
  - injection E as ->. cbn. lia.
  - cbn [firstn zlsum fold_right]. specialize (IH k x E). unfold zlsum in *. cbn [firstn] in IH |- *. cbn [fold_right]. rewrite IH. lia.
Qed.
Lemma prefix_all : forall b, prefix b (length b) = zlsum b.
Proof. intros b. unfold prefix. now rewrite firstn_all. Qed.
Lemma prefix_nonneg : forall b k, nonneg b -> 0 <= prefix b k <= zlsum b.
Proof.
  intros b k H. unfold prefix. pose proof (firstn_skipn k b) as E. rewrite <- E in H. unfold nonneg in H. rewrite Forall_app in H. destruct H as (H1 & H2).
  pose proof (nonneg_sum _ H1). pose proof (nonneg_sum _ H2). rewrite <- E at 3. rewrite zlsum_app. lia.
Qed.
Lemma zget_nth : forall {X} (l : list X) i x, nth_error l i = Some x -> zget l (Z.of_nat i) = Ok x.
Proof. intros X l i x E. unfold zget. replace (0 <=? Z.of_nat i) with true by lia. rewrite Nat2Z.id. unfold get. now rewrite E. Qed.

(** ** mode *)
Lemma mode_loop_ok : forall fuel b i max pos, (length b <= fuel + i)%nat -> (pos < i)%nat -> (i <= length b)%nat -> nth_error b pos = Some max ->
  (forall j x, nth_error b j = Some x -> (j < i)%nat -> x <= max /\ ((pos < j)%nat -> x < max)) ->
  exists k m, mode_loop fuel b (Z.of_nat (length b)) (Z.of_nat i) max (Z.of_nat pos) = Ok (Z.of_nat k) /\ nth_error b k = Some m /\
    forall j x, nth_error b j = Some x -> x <= m /\ ((k < j)%nat -> x < m).
Proof.
  induction fuel as [|fuel IH]; intros b i max pos F P I E H; cbn [mode_loop].
  - replace (Z.of_nat i <? Z.of_nat (length b)) with false by lia. exists pos, max. split; [reflexivity|]. split; [exact E|]. intros j x Ej. apply H; [exact Ej|]. apply nth_error_Some_lt in Ej || (assert (j < length b)%nat by (apply nth_error_Some; congruence)); lia.
  - destruct (Z.of_nat i <? Z.of_nat (length b)) eqn:L.
    + destruct (nth_error b i) as [x|] eqn:Ex; [|apply nth_error_None in Ex; lia]. rewrite (zget_nth _ _ _ Ex). cbn [bind]. replace (Z.of_nat i + 1) with (Z.of_nat (S i)) by lia.
      destruct (max <=? x) eqn:M.
      * apply IH; try lia; [exact Ex|]. intros j y Ej Lj. destruct (Nat.eq_dec j i) as [->|Nj]; [assert (y = x) by congruence; subst; lia|]. destruct (H j y Ej ltac:(lia)). split; lia.
      * apply IH; try lia; [exact E|]. intros j y Ej Lj. destruct (Nat.eq_dec j i) as [->|Nj]; [assert (y = x) by congruence; subst; lia|]. apply (H j y Ej). lia.
    + exists pos, max. split; [reflexivity|]. split; [exact E|]. intros j x Ej. apply H; [exact Ej|]. assert (j < length b)%nat by (apply nth_error_Some; congruence). lia.
Qed.
Lemma mode_ok : forall (h : hist exact) lo w, bin_low h = Fin lo -> bin_width h = Fin w -> num_bins h = Z.of_nat (length (bins h)) -> (0 < length (bins h))%nat ->
  exists k c m, h_mode exact h = Ok (Fin m) /\ (m == edge lo w k + w / 2)%Q /\ nth_error (bins h) k = Some c /\
    forall j x, nth_error (bins h) j = Some x -> x <= c /\ ((k < j)%nat -> x < c).
Proof.
  intros h lo w El Ew En L. unfold h_mode. destruct (nth_error (bins h) 0) as [x0|] eqn:E0; [|apply nth_error_None in E0; lia].
  change 0 with (Z.of_nat 0) at 1. rewrite (zget_nth _ _ _ E0). cbn [bind]. rewrite En.
  destruct (mode_loop_ok (length (bins h)) (bins h) 1 x0 0) as (k & c & E & Ek & H); try lia; [exact E0|intros j x Ej Lj; replace j with 0%nat in * by lia; assert (x = x0) by congruence; lia|].
  change (Z.of_nat 1) with 1 in E. change (Z.of_nat 0) with 0 in E. rewrite E. cbn [bind]. rewrite El, Ew. do 3 eexists. split; [cbn; reflexivity|]. split; [|split; [exact Ek|exact H]].
  unfold edge. field.
Qed.

(** ** percentile *)
Local Open Scope Q_scope.
Lemma gt_true : forall eps t h, d_gt exact (Fin eps) (Fin t) (Fin h) = true -> h < t.
Proof.
  intros eps t h E. unfold d_gt in E. apply andb_prop in E. destruct E as (E & _). cbn in E. destruct (Qle_bool t h) eqn:L; [discriminate|]. apply Qnot_le_lt. intros C. apply Qle_bool_iff in C. congruence.
Qed.
Lemma gt_false : forall eps t h, 0 <= eps -> 0 <= h -> d_gt exact (Fin eps) (Fin t) (Fin h) = false -> t <= h + eps * h \/ (h == 0 /\ t < eps).
Proof.
  intros eps t h He Hh E. unfold d_gt in E. apply andb_false_iff in E. destruct E as [E|E].
  - left. cbn in E. apply negb_false_iff, Qle_bool_iff in E. assert (0 <= eps * h) by (apply Qmult_le_0_compat; assumption). lra.
  - apply negb_false_iff, d_eq_exact in E. destruct (Qlt_le_dec h t) as [L|L]; [|left; assert (0 <= eps * h) by (apply Qmult_le_0_compat; assumption); lra].
    assert (Q1 : Qabs t == t) by (apply Qabs_pos; lra). assert (Q2 : Qabs h == h) by (apply Qabs_pos; lra). assert (Q3 : Qabs (t - h) == t - h) by (apply Qabs_pos; lra).
    assert (Q4 : Qmin (Qabs t) (Qabs h) == h) by (rewrite Q1, Q2; apply Q.min_r; lra). rewrite Q3, Q4 in E. destruct E as [(E1 & E2)|(E1 & E2)]; [right; lra|left; lra].
Qed.
Lemma gt_le : forall eps t h, t <= h -> d_gt exact (Fin eps) (Fin t) (Fin h) = false.
Proof. intros eps t h L. destruct (d_gt exact (Fin eps) (Fin t) (Fin h)) eqn:E; [|reflexivity]. apply gt_true in E. lra. Qed.

Local Notation pz b k := (inject_Z (prefix b k)).
Lemma loop_ok : forall eps t b, (0 <= eps) -> nonneg b -> (zlsum b < 2 ^ 64)%Z -> t <= inject_Z (zlsum b) -> forall m k x fuel,
  (k + m = length b)%nat -> nth_error b k = Some x -> (m <= fuel)%nat -> (k <> 0%nat -> d_gt exact (Fin eps) (Fin t) (Fin (pz b k)) = true) ->
  exists j y, percentile_loop exact fuel (Fin eps) (Fin t) b (Z.of_nat k) (prefix b k) (prefix b (S k)) = Ok (Z.of_nat j, prefix b j, prefix b (S j)) /\
    nth_error b j = Some y /\ (j <> 0%nat -> d_gt exact (Fin eps) (Fin t) (Fin (pz b j)) = true) /\ d_gt exact (Fin eps) (Fin t) (Fin (pz b (S j))) = false.
Proof.
  intros eps t b He N B T. induction m as [|m IH]; intros k x fuel K E F G.
  - exfalso. assert (k < length b)%nat by (apply nth_error_Some; congruence). lia.
  - destruct fuel as [|fuel]; [lia|]. cbn [percentile_loop]. change (@of_int exact (prefix b (S k))) with (Fin (pz b (S k))).
    destruct (d_gt exact (Fin eps) (Fin t) (Fin (pz b (S k)))) eqn:D; [|exists k, x; auto].
    destruct (nth_error b (S k)) as [y|] eqn:Ey.
    + replace (Z.of_nat k + 1)%Z with (Z.of_nat (S k)) by lia. rewrite (zget_nth _ _ _ Ey). cbn [bind].
      replace (u64 (prefix b (S k) + y)) with (prefix b (S (S k))); [|rewrite (prefix_S _ _ _ Ey); symmetry; unfold u64; apply Z.mod_small; rewrite <- (prefix_S _ _ _ Ey); pose proof (prefix_nonneg b (S (S k)) N); lia].
      apply (IH (S k) y fuel); [lia|exact Ey|lia|auto].
    + exfalso. apply nth_error_None in Ey. assert (S k = length b) by lia. rewrite H, prefix_all in D. rewrite gt_le in D; [discriminate|exact T].
Qed.

Lemma percentile_ok : forall (h : hist exact) lo w n p eps, bin_low h = Fin lo -> bin_width h = Fin w -> (0 < length (bins h))%nat -> nonneg (bins h) ->
  zlsum (bins h) = n -> number (base h) = n -> (n < 2 ^ 64)%Z -> 0 < w -> 0 <= p <= 1 -> 0 <= eps ->
  exists k c r, h_percentile exact (Fin eps) h (Fin p) = Ok (Fin r) /\ nth_error (bins h) k = Some c /\
    ((c = 0%Z /\ k = 0%nat /\ r == 0 /\ (p * inject_Z n == 0 \/ p * inject_Z n < eps)) \/
     ((0 < c)%Z /\ edge lo w k <= r /\ r <= edge lo w (S k) + eps * inject_Z n * w /\
      (k <> 0%nat -> pz (bins h) k < p * inject_Z n) /\ p * inject_Z n <= pz (bins h) (S k) * (1 + eps) /\
      r == edge lo w k + w * ((p * inject_Z n - pz (bins h) k) / inject_Z c))).
Proof.
  intros h lo w n p eps El Ew L N S C B W P He. unfold h_percentile. cbn [nle exact of_int xle].
  assert (I : Qle_bool (inject_Z 0) p && Qle_bool p (inject_Z 1) = true) by (apply andb_true_intro; split; apply Qle_bool_iff; [change (inject_Z 0) with 0|change (inject_Z 1) with 1]; lra).
  rewrite I. cbn [invariant bind]. unfold st_count. rewrite C. set (t := p * inject_Z n).
  assert (Hn : (0 <= n)%Z) by (rewrite <- S; now apply nonneg_sum). assert (Hn' : 0 <= inject_Z n) by (change 0 with (inject_Z 0); rewrite <- Zle_Qle; exact Hn).
  assert (T0 : 0 <= t) by (unfold t; apply Qmult_le_0_compat; lra). assert (T1 : t <= inject_Z n) by (unfold t; nra).
  destruct (nth_error (bins h) 0) as [x0|] eqn:E0; [|apply nth_error_None in E0; lia]. change 0%Z with (Z.of_nat 0) at 1. rewrite (zget_nth _ _ _ E0). cbn [bind].
  change (@nmul exact (Fin p) (Fin (inject_Z n))) with (Fin t).
  destruct (loop_ok eps t (bins h) He N ltac:(lia) ltac:(rewrite S; exact T1) (length (bins h)) 0%nat x0 (length (bins h)) ltac:(lia) E0 ltac:(lia) ltac:(congruence)) as (k & c & E & Ek & G1 & G2).
  change (prefix (bins h) 0) with 0%Z in E. assert (E1 : prefix (bins h) 1 = x0) by (rewrite (prefix_S _ _ _ E0); unfold prefix; cbn; lia). rewrite E1 in E. change (Z.of_nat 0) with 0%Z in E. rewrite E. cbn [bind].
  pose proof (prefix_S _ _ _ Ek) as Ep. assert (Hc : (0 <= c)%Z) by (apply (nonneg_le _ _ _ N Ek)). pose proof (prefix_nonneg (bins h) k N) as (Hp & _). pose proof (prefix_nonneg (bins h) (Datatypes.S k) N) as (_ & Hp').
  exists k, c. destruct (prefix (bins h) (Datatypes.S k) =? prefix (bins h) k)%Z eqn:Q.
  - assert (c = 0)%Z by lia. subst c. assert (k = 0%nat). { destruct k as [|k]; [reflexivity|]. specialize (G1 ltac:(lia)). rewrite Z.eqb_eq in Q. rewrite Q in G2. congruence. } subst k.
    replace (Z.of_nat 0 =? 0)%Z with true by reflexivity. cbn [invariant bind]. eexists. split; [reflexivity|]. split; [exact Ek|]. left. split; [reflexivity|]. split; [reflexivity|]. split; [reflexivity|].
    assert (Ez : prefix (bins h) 1 = 0%Z) by (rewrite Ep; unfold prefix; reflexivity). rewrite Ez in G2. apply gt_false in G2; [|assumption|change (inject_Z 0) with 0; lra]. change (inject_Z 0) with 0 in G2. destruct G2 as [G2|(_ & G2)]; [left; lra|right; exact G2].
  - assert (Hc' : (0 < c)%Z) by lia. assert (Hq : 1 <= inject_Z c) by (change 1 with (inject_Z 1); rewrite <- Zle_Qle; lia).
    rewrite El, Ew. replace (prefix (bins h) (Datatypes.S k) - prefix (bins h) k)%Z with c by lia. cbn [exact nadd nmul nsub ndiv of_int xadd xsub xmul xopp xdiv].
    assert (Nz : Qeq_bool (inject_Z c) 0 = false) by (apply not_true_iff_false; rewrite Qeq_bool_iff; lra). rewrite Nz. cbn [exact nadd nmul xadd xmul].
    eexists. split; [reflexivity|]. split; [exact Ek|]. right.
    assert (Hpk : 0 <= pz (bins h) k) by (change 0 with (inject_Z 0); rewrite <- Zle_Qle; exact Hp). assert (Hpk' : pz (bins h) (Datatypes.S k) <= inject_Z n) by (rewrite <- Zle_Qle; lia). assert (Eq : pz (bins h) (Datatypes.S k) == pz (bins h) k + inject_Z c) by (rewrite Ep, inject_Z_plus; reflexivity).
    assert (LT : pz (bins h) k <= t). { destruct k as [|k]; [unfold prefix; cbn; exact T0|]. specialize (G1 ltac:(lia)). apply gt_true in G1. lra. }
    apply gt_false in G2; [|assumption|lra]. assert (G3 : t <= pz (bins h) (Datatypes.S k) + eps * pz (bins h) (Datatypes.S k)) by (destruct G2 as [G2|(G2 & _)]; [exact G2|lra]).
    set (f := (t - pz (bins h) k) / inject_Z c). assert (Ff : f * inject_Z c == t - pz (bins h) k) by (unfold f; field; lra).
    assert (F0 : 0 <= f) by (unfold f; apply Qle_shift_div_l; lra).
    assert (F1 : f <= 1 + eps * inject_Z n).
    { unfold f. apply Qle_shift_div_r; [lra|]. assert (eps * pz (bins h) (Datatypes.S k) <= eps * inject_Z n) by (apply Qmult_le_l_nn || (rewrite (Qmult_comm eps), (Qmult_comm eps); apply Qmult_le_compat_r; assumption); try assumption).
      assert (0 <= eps * inject_Z n) by (apply Qmult_le_0_compat; assumption). nra. }
    assert (Er : lo + w * (inject_Z (Z.of_nat k) + (t + - pz (bins h) k) / inject_Z c) == edge lo w k + w * f) by (unfold edge, f; field; lra).
    split; [exact Hc'|]. split; [rewrite Er; assert (0 <= w * f) by (apply Qmult_le_0_compat; lra); lra|]. split; [rewrite Er, edge_S; nra|].
    split; [intros Hk; apply gt_true in G1; [exact G1|exact Hk]|]. split; [lra|]. rewrite Er. reflexivity.
Qed.

(** ** the prefix counts are counts of samples *)
Lemma zcount_below_split : forall a b l, a <= b -> (zcount (below a) l + zcount (in_range a b) l = zcount (below b) l)%Z.
Proof.
  intros a b l H. unfold zcount. induction l as [|x l IH]; [reflexivity|]. cbn [filter]. unfold below, in_range in *.
  assert (E : (if negb (Qle_bool b x) then 1 else 0)%Z = ((if negb (Qle_bool a x) then 1 else 0) + (if Qle_bool a x && negb (Qle_bool b x) then 1 else 0))%Z).
  { destruct (Qle_bool_spec' a x), (Qle_bool_spec' b x); cbn; try reflexivity; lra. }
  destruct (Qle_bool b x), (Qle_bool a x); cbn [negb andb] in *; cbv iota in E; cbn [length] in *; lia.
Qed.
Lemma prefix_intervals : forall b lo w l, 0 < w -> bins_count_intervals lo w b l -> Forall (fun x => lo <= x) l -> forall k, (k <= length b)%nat -> prefix b k = zcount (below (edge lo w k)) l.
Proof.
  intros b lo w l W H F. induction k as [|k IH]; intros L.
  - unfold prefix. cbn [firstn]. symmetry. apply zcount_0. intros x Hx. rewrite Forall_forall in F. specialize (F x Hx). unfold below. apply negb_false_iff, Qle_bool_iff. rewrite edge_0. exact F.
  - destruct (nth_error b k) as [c|] eqn:E; [|apply nth_error_None in E; lia]. rewrite (prefix_S _ _ _ E), IH by lia. rewrite (H _ _ E). apply zcount_below_split. apply edge_mono; [lra|lia].
Qed.
Lemma prefix_clamped : forall b lo w l, 0 < w -> bins_count_clamped lo w b l -> forall k, (0 < k < length b)%nat -> prefix b k = zcount (below (edge lo w k)) l.
Proof.
  intros b lo w l W H. induction k as [|k IH]; intros L; [lia|].
  destruct (nth_error b k) as [c|] eqn:E; [|apply nth_error_None in E; lia]. rewrite (prefix_S _ _ _ E). rewrite (H _ _ E). destruct k as [|k].
  - unfold prefix. cbn [firstn zlsum fold_right]. rewrite Z.add_0_l. apply zcount_ext. intros x _. unfold clamped, below. cbn [Nat.eqb orb andb]. destruct (length b) as [|[|n]]; try lia; reflexivity.
  - rewrite IH by lia. rewrite <- (zcount_below_split (edge lo w (S k)) (edge lo w (S (S k)))) by (apply edge_mono; [lra|lia]). f_equal. apply zcount_ext. intros x _. unfold clamped, in_range. replace (S k =? 0)%nat with false by reflexivity. replace (S (S k) =? length b)%nat with false by (symmetry; apply Nat.eqb_neq; lia). reflexivity.
Qed.
Lemma prefix_mono : forall b i j, nonneg b -> (i <= j)%nat -> (prefix b i <= prefix b j)%Z.
Proof.
  intros b i j N L. induction L as [|j L IH]; [lia|]. destruct (nth_error b j) as [x|] eqn:E.
  - rewrite (prefix_S _ _ _ E). pose proof (nonneg_le _ _ _ N E). lia.
  - apply nth_error_None in E. replace (prefix b (S j)) with (prefix b j) by (unfold prefix; rewrite !firstn_all2 by lia; reflexivity). exact IH.
Qed.

(** ** any arithmetic *)
Section G.
Variable A : arith.
Lemma loop_safe : forall (eps t : A) b, nonneg b -> (zlsum b < 2 ^ 64)%Z -> d_gt A eps t (of_int (zlsum b)) = false -> forall m k x fuel,
  (k + m = length b)%nat -> nth_error b k = Some x -> (m <= fuel)%nat -> (k <> 0%nat -> d_gt A eps t (of_int (prefix b k)) = true) ->
  exists j y, percentile_loop A fuel eps t b (Z.of_nat k) (prefix b k) (prefix b (S k)) = Ok (Z.of_nat j, prefix b j, prefix b (S j)) /\
    nth_error b j = Some y /\ (j <> 0%nat -> d_gt A eps t (of_int (prefix b j)) = true) /\ d_gt A eps t (of_int (prefix b (S j))) = false.
Proof.
  intros eps t b N B T. induction m as [|m IH]; intros k x fuel K E F G.
  - exfalso. assert (k < length b)%nat by (apply nth_error_Some; congruence). lia.
  - destruct fuel as [|fuel]; [lia|]. cbn [percentile_loop].
    destruct (d_gt A eps t (of_int (prefix b (S k)))) eqn:D; [|exists k, x; auto].
    destruct (nth_error b (S k)) as [y|] eqn:Ey.
    + replace (Z.of_nat k + 1)%Z with (Z.of_nat (S k)) by lia. rewrite (zget_nth _ _ _ Ey). cbn [bind].
      replace (u64 (prefix b (S k) + y)) with (prefix b (S (S k))); [|rewrite (prefix_S _ _ _ Ey); symmetry; unfold u64; apply Z.mod_small; rewrite <- (prefix_S _ _ _ Ey); pose proof (prefix_nonneg b (S (S k)) N); lia].
      apply (IH (S k) y fuel); [lia|exact Ey|lia|auto].
    + exfalso. apply nth_error_None in Ey. assert (Hl : S k = length b) by lia. rewrite Hl, prefix_all in D. congruence.
Qed.
Lemma percentile_safe : forall (h : hist A) (eps p : A), (0 < length (bins h))%nat -> nonneg (bins h) -> (zlsum (bins h) < 2 ^ 64)%Z ->
  nle (of_int 0) p && nle p (of_int 1) = true -> d_gt A eps (nmul p (of_int (st_count A (base h)))) (of_int (zlsum (bins h))) = false ->
  exists r, h_percentile A eps h p = Ok r.
Proof.
  intros h eps p L N B I T. unfold h_percentile. rewrite I. cbn [invariant bind]. set (t := nmul p (of_int (st_count A (base h)))) in *. cbv zeta.
  destruct (nth_error (bins h) 0) as [x0|] eqn:E0; [|apply nth_error_None in E0; lia]. change 0%Z with (Z.of_nat 0) at 1. rewrite (zget_nth _ _ _ E0). cbn [bind].
  destruct (loop_safe eps t (bins h) N B T (length (bins h)) 0%nat x0 (length (bins h)) ltac:(lia) E0 ltac:(lia) ltac:(congruence)) as (k & c & E & Ek & G1 & G2).
  change (prefix (bins h) 0) with 0%Z in E. assert (E1 : prefix (bins h) 1 = x0) by (rewrite (prefix_S _ _ _ E0); unfold prefix; cbn; lia). rewrite E1 in E. change (Z.of_nat 0) with 0%Z in E. rewrite E. cbn [bind].
  destruct (prefix (bins h) (S k) =? prefix (bins h) k)%Z eqn:Q; [|eauto]. apply Z.eqb_eq in Q. destruct k as [|k]; [cbn; eauto|]. specialize (G1 ltac:(lia)). rewrite Q in G2. congruence.
Qed.

Lemma grow_num : forall (h : hist A) v h', grow A h v = Ok h' -> (num_bins h <= num_bins h')%Z.
Proof.
  intros h v h' E. unfold grow in E. destruct (is_growable h && (nlt v (bin_low h) || nle (bin_high h) v)); [|injection E as <-; lia].
  destruct (nle (bin_high h) v).
  - destruct (nlt v (of_int half_max)); cbn [invariant bind] in E; [|discriminate]. destruct (floor_unsigned 32 _) as [f| | |]; cbn [bind] in E; try discriminate. cbv zeta in E. destruct (num_bins h <=? grown_bins (num_bins h) f)%Z eqn:L; [|discriminate]. injection E as <-. cbn [num_bins]. lia.
  - destruct (nlt (nopp v) (of_int half_max)); cbn [invariant bind] in E; [|discriminate]. destruct (floor_unsigned 32 _) as [f| | |]; cbn [bind] in E; try discriminate. cbv zeta in E. destruct (num_bins h <=? grown_bins (num_bins h) f)%Z eqn:L; [|discriminate]. injection E as <-. cbn [num_bins]. lia.
Qed.
Lemma low_num : forall fuel (h : hist A) v h', scale_low A fuel h v = Ok h' -> num_bins h' = num_bins h.
Proof.
  induction fuel as [|f IH]; intros h v h' E; cbn [scale_low] in E; destruct (nlt v (bin_low h)); try discriminate; try (injection E as <-; reflexivity).
  destruct (scale_low_once A h) as [h1| | |] eqn:E1; cbn [bind] in E; try discriminate. rewrite (IH _ _ _ E). unfold scale_low_once in E1. cbv zeta in E1.
  destruct (merge_up _ _ _ _) as [[b i]| | |]; cbn [bind] in E1; try discriminate. destruct (zero_down _ _ _); cbn [bind] in E1; try discriminate. injection E1 as <-. reflexivity.
Qed.
Lemma high_num : forall fuel (h : hist A) v h', scale_high A fuel h v = Ok h' -> num_bins h' = num_bins h.
Proof.
  induction fuel as [|f IH]; intros h v h' E; cbn [scale_high] in E; destruct (nle (bin_high h) v); try discriminate; try (injection E as <-; reflexivity).
  destruct (scale_high_once A h) as [h1| | |] eqn:E1; cbn [bind] in E; try discriminate. rewrite (IH _ _ _ E). unfold scale_high_once in E1. cbv zeta in E1.
  destruct (merge_down _ _ _ _ _) as [[b i]| | |]; cbn [bind] in E1; try discriminate. destruct (zero_up _ _ _ _); cbn [bind] in E1; try discriminate. injection E1 as <-. reflexivity.
Qed.
Lemma add_num : forall fuel (h : hist A) v h', h_add A fuel h v = Ok h' -> (num_bins h <= num_bins h')%Z.
Proof.
  intros fuel h v h' E. unfold h_add in E. cbv zeta in E. destruct (grow A _ v) as [h1| | |] eqn:E1; cbn [bind] in E; try discriminate. apply grow_num in E1. cbn [with_base num_bins] in E1.
  destruct (scale A fuel h1 v) as [h2| | |] eqn:E2; cbn [bind] in E; try discriminate. assert (E3 : num_bins h2 = num_bins h1).
  { unfold scale in E2. destruct (is_scalable h1 && _); [|injection E2 as <-; reflexivity]. destruct (scale_low A fuel h1 v) as [h3| | |] eqn:E3; cbn [bind] in E2; try discriminate. apply low_num in E3. apply high_num in E2. congruence. }
  destruct (sampleBin A h2 v); cbn [bind] in E; try discriminate. destruct (zget (bins h2) _); cbn [bind] in E; try discriminate. destruct (zput (bins h2) _ _); cbn [bind] in E; try discriminate. injection E as <-. cbn [with_bins num_bins]. lia.
Qed.
Lemma adds_num : forall fuel l (h h' : hist A), h_adds A fuel h l = Ok h' -> (num_bins h <= num_bins h')%Z.
Proof.
  induction l as [|x l IH]; intros h h' E; cbn [h_adds] in E; [injection E as <-; lia|]. destruct (h_add A fuel h x) as [h1| | |] eqn:E1; cbn [bind] in E; try discriminate. apply add_num in E1. apply IH in E. lia.
Qed.
Lemma bins_nonempty : forall bins_in (low high : A) s g fuel l h0 h, (0 < bins_in < 2 ^ 31)%Z -> (Z.of_nat (length l) < 2 ^ 64)%Z -> h_new A bins_in low high s g = Ok h0 -> h_adds A fuel h0 l = Ok h -> (0 < length (bins h))%nat.
Proof.
  intros bins_in low high s g fuel l h0 h B L N E. destruct (h_new_total A bins_in low high s g h0 ltac:(lia) N) as (T0 & _). destruct (h_adds_total A fuel l h0 0 h T0 ltac:(lia) E) as (((S1 & S2 & _) & _) & _). apply adds_num in E.
  assert (num_bins h0 = 2 * ((bins_in + 1) / 2))%Z.
  { unfold h_new in N. cbv zeta in N. destruct (nle low high); cbn [invariant bind] in N; [|discriminate]. destruct (0 <? bins_in)%Z; cbn [invariant bind] in N; [|discriminate]. destruct (negb (g && s)); cbn [invariant bind] in N; [|discriminate]. apply Ok_inj in N. subst h0. cbn [h_reset num_bins]. unfold u32. rewrite Z.mod_small by lia. reflexivity. }
  assert (1 <= (bins_in + 1) / 2)%Z by (Z.to_euclidean_division_equations; lia). lia.
Qed.
End G.

(** ** doubles *)
From Coq Require Import Reals Lra.
From Flocq Require Import Core BinarySingleNaN.
From Verif Require Import Double64 Clock_Proofs.
Lemma double_in_range : forall p : double, is_finite p = true -> (0 <= B2R p <= 1)%R -> @nle ieee (of_int 0) p && @nle ieee p (of_int 1) = true.
Proof.
  intros p F P. cbn [ieee nle of_int]. destruct (of_Z_exact 0 ltac:(lia)) as (E0 & F0). destruct (of_Z_exact 1 ltac:(lia)) as (E1 & F1). rewrite !bleb_R by assumption. rewrite E0, E1.
  rewrite !Rle_bool_true by lra. reflexivity.
Qed.
Lemma double_target : forall (eps p : double) n, is_finite p = true -> (0 <= B2R p <= 1)%R -> (0 <= n < 2 ^ 53)%Z ->
  d_gt ieee eps (@nmul ieee p (of_int n)) (of_int n) = false.
Proof.
  intros eps p n F P Hn. unfold d_gt. cbn [ieee nlt nmul of_int]. destruct (of_Z_exact n ltac:(lia)) as (En & Fn).
  assert (Hb : (0 <= IZR n <= bpow radix2 53)%R) by (change (bpow radix2 53) with (IZR (2 ^ 53)); split; apply IZR_le; lia).
  destruct (dmul_spec p (of_Z n) 53 F Fn ltac:(lia)) as (Em & Fm); [rewrite En, Rabs_pos_eq by nra; nra|].
  rewrite bltb_R by assumption. rewrite Em, En. rewrite Rlt_bool_false; [reflexivity|]. rewrite <- (rnd_Z n) at 2 by lia. apply rnd_le. nra.
Qed.
