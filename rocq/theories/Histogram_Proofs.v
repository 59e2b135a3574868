(** Proofs: the histogram over exact arithmetic. *)
From Coq Require Import List ZArith QArith Qround Bool Lqa Lia ZifyBool ZifyNat Setoid.
From Verif Require Import Common CommonFacts Arith Stats_Spec Stats_Model Stats_Proofs Histogram_Spec Histogram_Model Histogram_Arr.
Import ListNotations.
Local Open Scope Q_scope.

Lemma Qle_bool_spec' : forall a b, reflect (a <= b) (Qle_bool a b).
Proof. intros a b. destruct (Qle_bool a b) eqn:E; constructor; [now apply Qle_bool_iff|]. apply Qle_bool_false in E. lra. Qed.
Lemma in_range_iff : forall lo hi x, in_range lo hi x = true <-> lo <= x /\ x < hi.
Proof.
  intros lo hi x. unfold in_range. rewrite andb_true_iff, negb_true_iff, Qle_bool_iff, Qle_bool_false. tauto.
Qed.
Lemma in_range_ext : forall a b c d x, a == c -> b == d -> in_range a b x = in_range c d x.
Proof. intros a b c d x E F. apply eq_true_iff_eq. rewrite !in_range_iff, E, F. tauto. Qed.
Lemma zcount_snoc : forall p l x, zcount p (l ++ [x]) = (zcount p l + (if p x then 1 else 0))%Z.
Proof. intros p l x. unfold zcount. rewrite filter_app, app_length. cbn. destruct (p x); cbn; lia. Qed.
Lemma zcount_ext : forall p q l, (forall x, In x l -> p x = q x) -> zcount p l = zcount q l.
Proof. intros p q l H. unfold zcount. f_equal. f_equal. apply filter_ext_in. exact H. Qed.
Lemma zcount_0 : forall p l, (forall x, In x l -> p x = false) -> zcount p l = 0%Z.
Proof.
  intros p l H. unfold zcount. induction l as [|a l IH]; [reflexivity|]. cbn. rewrite H by (now left). apply IH. intros x Hx. apply H. now right.
Qed.
Lemma zcount_split : forall a b c l, a <= b -> b <= c -> (zcount (in_range a b) l + zcount (in_range b c) l = zcount (in_range a c) l)%Z.
Proof.
  intros a b c l H1 H2. unfold zcount. induction l as [|x l IH]; [reflexivity|]. cbn.
  destruct (in_range a b x) eqn:E1, (in_range b c x) eqn:E2, (in_range a c x) eqn:E3; cbn [length];
    rewrite ?in_range_iff in *; try lia; exfalso;
    repeat match goal with H : in_range _ _ _ = false |- _ => apply not_true_iff_false in H; rewrite in_range_iff in H end; try lra.
Qed.
Lemma zcount_le : forall p l, (0 <= zcount p l <= Z.of_nat (length l))%Z.
Proof. intros p l. unfold zcount. assert (length (filter p l) <= length l)%nat by (induction l as [|a l IH]; cbn; [lia|destruct (p a); cbn; lia]). lia. Qed.

Lemma edge_0 : forall lo w, edge lo w 0 == lo.
Proof. intros. unfold edge. cbn. ring. Qed.
Lemma inject_succ : forall n, inject_Z (Z.of_nat (S n)) == inject_Z (Z.of_nat n) + 1.
Proof. intros n. rewrite Nat2Z.inj_succ. unfold Z.succ. rewrite inject_Z_plus. reflexivity. Qed.
Lemma edge_S : forall lo w i, edge lo w (S i) == edge lo w i + w.
Proof. intros. unfold edge. rewrite inject_succ. ring. Qed.
Lemma edge_add : forall lo w i j, edge lo w (i + j) == edge lo w i + inject_Z (Z.of_nat j) * w.
Proof. intros. unfold edge. rewrite Nat2Z.inj_add, inject_Z_plus. ring. Qed.
Lemma edge_mono : forall lo w i j, 0 <= w -> (i <= j)%nat -> edge lo w i <= edge lo w j.
Proof.
  intros lo w i j W H. replace j with (i + (j - i))%nat by lia. rewrite edge_add.
  assert (0 <= inject_Z (Z.of_nat (j - i)) * w) by (apply Qmult_le_0_compat; [unfold Qle; cbn; lia|exact W]). lra.
Qed.
Lemma edge_lt_inv : forall lo w i j, 0 < w -> edge lo w i < edge lo w j -> (i < j)%nat.
Proof.
  intros lo w i j W H. destruct (Nat.lt_ge_cases i j) as [L|L]; [exact L|]. pose proof (edge_mono lo w j i ltac:(lra) L). lra.
Qed.

(** The floor of (x - lo) / w is the bin whose interval holds x. *)
Lemma floor_bin : forall lo w x, 0 < w -> lo <= x ->
  exists k, Qfloor ((x - lo) / w) = Z.of_nat k /\ edge lo w k <= x /\ x < edge lo w (S k).
Proof.
  intros lo w x W H. set (y := (x - lo) / w). assert (E : x == lo + y * w) by (unfold y; field; lra).
  assert (Y : 0 <= y) by (unfold y; apply Qle_shift_div_l; lra).
  pose proof (Qfloor_le y) as F1. pose proof (Qlt_floor y) as F2.
  assert (F0 : (0 <= Qfloor y)%Z) by (change 0%Z with (Qfloor 0); now apply Qfloor_resp_le).
  exists (Z.to_nat (Qfloor y)). split; [lia|]. unfold edge. rewrite inject_succ, Z2Nat.id by exact F0.
  rewrite inject_Z_plus in F2. change (inject_Z 1) with 1 in F2. split.
  - rewrite E. assert (inject_Z (Qfloor y) * w <= y * w) by (apply Qmult_le_compat_r; lra). lra.
  - rewrite E. assert (y * w < (inject_Z (Qfloor y) + 1) * w) by (apply Qmult_lt_compat_r; lra). lra.
Qed.
Lemma range_unique : forall lo w x i k, 0 < w -> edge lo w k <= x -> x < edge lo w (S k) ->
  in_range (edge lo w i) (edge lo w (S i)) x = (i =? k)%nat.
Proof.
  intros lo w x i k W H1 H2. apply eq_true_iff_eq. rewrite in_range_iff, Nat.eqb_eq. split.
  - intros [A B]. assert (i < S k)%nat by (apply (edge_lt_inv lo w); [exact W|lra]). assert (k < S i)%nat by (apply (edge_lt_inv lo w); [exact W|lra]). lia.
  - intros ->. split; assumption.
Qed.

(** Incrementing the right bin. *)
Lemma bump : forall (p : nat -> Q -> bool) b l x k, (forall i c, nth_error b i = Some c -> c = zcount (p i) l) ->
  (k < length b)%nat -> (forall i, (i < length b)%nat -> p i x = (i =? k)%nat) -> (Z.of_nat (length l) + 1 < 2 ^ 64)%Z ->
  exists c b', zget b (Z.of_nat k) = Ok c /\ zput b (Z.of_nat k) (u64 (c + 1)) = Ok b' /\ length b' = length b /\
    (forall i c, nth_error b' i = Some c -> c = zcount (p i) (l ++ [x])).
Proof.
  intros p b l x k C L P B. destruct (get_lt b k L) as (c & E & G). exists c, (upd b k (u64 (c + 1))).
  unfold zget, zput. replace (0 <=? Z.of_nat k)%Z with true by lia. rewrite Nat2Z.id, G, put_ok by exact L.
  repeat split; [apply length_upd|]. intros i d E'. rewrite zcount_snoc.
  assert (Li : (i < length b)%nat) by (apply nth_error_lt in E'; now rewrite length_upd in E'). rewrite P by exact Li.
  rewrite nth_error_upd in E'. destruct (Nat.eqb_spec k i) as [->|N].
  - replace (i <? length b)%nat with true in E' by lia. cbn in E'. injection E' as <-. rewrite Nat.eqb_refl, <- (C i c E).
    pose proof (zcount_le (p i) l) as Z. rewrite <- (C i c E) in Z. unfold u64. apply Z.mod_small. lia.
  - cbn in E'. replace (i =? k)%nat with false by lia. rewrite Z.add_0_r. now apply C.
Qed.

(** Invariant of the modes that keep every sample inside the range. *)
Definition HR (h : hist exact) (lo hi w : Q) (l : list Q) : Prop :=
  bin_low h = Fin lo /\ bin_high h = Fin hi /\ bin_width h = Fin w /\ 0 < w /\ hi == edge lo w (length (bins h)) /\
  (0 < length (bins h))%nat /\ num_bins h = Z.of_nat (length (bins h)) /\
  bins_count_intervals lo w (bins h) l /\ Forall (fun x => lo <= x /\ x < hi) l.

Lemma nle_fin : forall a b, @nle exact (Fin a) (Fin b) = Qle_bool a b.
Proof. reflexivity. Qed.
Lemma nlt_fin : forall a b, @nlt exact (Fin a) (Fin b) = negb (Qle_bool b a).
Proof. reflexivity. Qed.
Lemma floor_fin : forall a b k, ~ b == 0 -> Qfloor (a / b) = k -> (0 <= k < 2 ^ 32)%Z ->
  @floor_unsigned exact 32 (@ndiv exact (Fin a) (Fin b)) = Ok k.
Proof.
  intros a b k N E R. unfold floor_unsigned. cbn [nfloor ndiv exact xdiv].
  rewrite (proj2 (Qeq_bool_false b 0) N), E. replace ((0 <=? k) && (k <? 2 ^ 32))%Z with true by lia. reflexivity.
Qed.

(** Counting a sample that is inside the range. *)
Lemma add_inside : forall h lo hi w l x, HR h lo hi w l -> lo <= x -> x < hi -> (num_bins h < 2 ^ 32)%Z -> (Z.of_nat (length l) + 1 < 2 ^ 64)%Z ->
  exists b, (let! bin := sampleBin exact h (Fin x) in
             let! c := zget (bins h) bin in
             let! b := zput (bins h) bin (u64 (c + 1)) in
             Ok (with_bins exact h b)) = Ok (with_bins exact h b) /\
            HR (with_bins exact h b) lo hi w (l ++ [x]) /\ length b = length (bins h).
Proof.
  intros h lo hi w l x (E1 & E2 & E3 & W & EH & LP & NB & C & F) Hl Hh B NL.
  destruct (floor_bin lo w x W Hl) as (k & K1 & K2 & K3).
  assert (KL : (k < length (bins h))%nat) by (apply (edge_lt_inv lo w); [exact W|lra]).
  assert (SB : sampleBin exact h (Fin x) = Ok (Z.of_nat k)).
  { unfold sampleBin. rewrite E1, E2, E3, !nle_fin.
    destruct (Qle_bool_spec' x lo) as [L|L].
    - f_equal. assert (k < 1)%nat by (apply (edge_lt_inv lo w); [exact W|]; rewrite edge_S, edge_0; lra). lia.
    - rewrite (proj2 (Qle_bool_false hi x)) by exact Hh. cbn [nsub exact xsub xadd xopp]. change (x + - lo) with (x - lo).
      apply floor_fin; [lra|exact K1|lia]. }
  destruct (bump (fun i => in_range (edge lo w i) (edge lo w (S i))) (bins h) l x k C KL) as (c & b & G & P & Lb & C').
  - intros i _. now apply range_unique.
  - exact NL.
  - exists b. rewrite SB. cbn [bind]. rewrite G. cbn [bind]. rewrite P. cbn [bind]. split; [reflexivity|]. split; [|exact Lb].
    unfold HR, with_bins. cbn [bin_low bin_high bin_width bins num_bins]. rewrite Lb. repeat split; auto.
    apply Forall_app. split; [exact F|]. constructor; [split; assumption|constructor].
Qed.

(** One doubling of the range at its upper end. *)
Lemma nth_pairs : forall m l i c, length l = (2 * m)%nat -> nth_error (pairs l) i = Some c ->
  exists a b, nth_error l (2 * i) = Some a /\ nth_error l (2 * i + 1) = Some b /\ c = u64 (a + b).
Proof.
  induction m as [|m IH]; intros l i c L E.
  - destruct l; [destruct i; discriminate|cbn in L; lia].
  - destruct l as [|a [|b l]]; cbn in L; try lia. cbn [pairs] in E. destruct i as [|i]; cbn in E.
    + injection E as <-. exists a, b. auto.
    + destruct (IH l i c ltac:(lia) E) as (a' & b' & A1 & B1 & ->). exists a', b'.
      replace (2 * S i)%nat with (S (S (2 * i))) by lia. replace (S (S (2 * i)) + 1)%nat with (S (S (2 * i + 1))) by lia. cbn [nth_error]. auto.
Qed.
Lemma edge_double : forall lo w i, edge lo (w + w) i == edge lo w (2 * i).
Proof. intros. unfold edge. rewrite Nat2Z.inj_mul, inject_Z_mult. ring. Qed.
Lemma nth_repeat0 : forall n i c, nth_error (repeat 0%Z n) i = Some c -> c = 0%Z.
Proof. intros n i c E. apply nth_error_In in E. now apply repeat_spec in E. Qed.

Lemma pair_counts : forall lo w m b l i c, 0 < w -> length b = (2 * m)%nat -> bins_count_intervals lo w b l -> (Z.of_nat (length l) < 2 ^ 64)%Z ->
  nth_error (pairs b) i = Some c -> c = zcount (in_range (edge lo w (2 * i)) (edge lo w (2 * S i))) l.
Proof.
  intros lo w m b l i c W L C B E. destruct (nth_pairs m b i c L E) as (p & q & P & Q & ->). apply C in P. apply C in Q.
  replace (2 * S i)%nat with (S (2 * i + 1)) by lia.
  rewrite <- (zcount_split (edge lo w (2 * i)) (edge lo w (2 * i + 1)) (edge lo w (S (2 * i + 1)))) by (apply edge_mono; [lra|lia]).
  replace (S (2 * i)) with (2 * i + 1)%nat in P by lia. rewrite <- P, <- Q.
  assert (p + q <= Z.of_nat (length l))%Z.
  { rewrite P, Q, zcount_split by (apply edge_mono; [lra|lia]). apply zcount_le. }
  assert (0 <= p)%Z by (rewrite P; apply zcount_le). assert (0 <= q)%Z by (rewrite Q; apply zcount_le).
  unfold u64. apply Z.mod_small. lia.
Qed.

Lemma high_once : forall h lo hi w l m, HR h lo hi w l -> length (bins h) = (2 * m)%nat -> (Z.of_nat (length l) < 2 ^ 64)%Z ->
  exists h', scale_high_once exact h = Ok h' /\ HR h' lo (hi + (hi - lo)) (w + w) l /\ length (bins h') = length (bins h) /\
    num_bins h' = num_bins h /\ base h' = base h /\ is_scalable h' = is_scalable h /\ is_growable h' = is_growable h.
Proof.
  intros h lo hi w l m (E1 & E2 & E3 & W & EH & LP & NB & C & F) L B.
  rewrite (scale_high_once_eq exact h m L ltac:(lia)). eexists. split; [reflexivity|].
  pose proof (pairs_length m (bins h) L) as Lp.
  assert (LL : length (pairs (bins h) ++ repeat 0%Z m) = length (bins h)) by (rewrite app_length, repeat_length; lia).
  unfold HR. cbn [bin_low bin_high bin_width bins num_bins base is_scalable is_growable]. rewrite LL, E1, E2, E3. split; [|repeat split].
  split; [reflexivity|]. split; [reflexivity|]. split; [reflexivity|]. split; [lra|].
  split; [rewrite edge_double, L; rewrite EH, L; unfold edge; rewrite !Nat2Z.inj_mul, !inject_Z_mult; change (inject_Z (Z.of_nat 2)) with 2; ring|].
  split; [exact LP|]. split; [exact NB|]. split.
  - intros i c Ec. destruct (Nat.lt_ge_cases i m) as [Li|Li].
    + rewrite nth_error_app1 in Ec by lia. rewrite (pair_counts lo w m (bins h) l i c W L C B Ec).
      apply zcount_ext. intros x _. apply in_range_ext; now rewrite edge_double.
    + rewrite nth_error_app2 in Ec by lia. apply nth_repeat0 in Ec. subst c. symmetry. apply zcount_0. intros x Hx.
      rewrite Forall_forall in F. specialize (F x Hx). apply not_true_iff_false. rewrite in_range_iff. intros [A _].
      rewrite edge_double in A. pose proof (edge_mono lo w (length (bins h)) (2 * i) ltac:(lra) ltac:(lia)). lra.
  - eapply Forall_impl; [|exact F]. cbn. intros x Hx.
    assert (lo <= hi) by (rewrite EH, <- (edge_0 lo w) at 1; apply edge_mono; [lra|lia]). lra.
Qed.
Lemma low_once : forall h lo hi w l m, HR h lo hi w l -> length (bins h) = (2 * m)%nat -> (num_bins h <= 2 ^ 31)%Z -> (Z.of_nat (length l) < 2 ^ 64)%Z ->
  exists h', scale_low_once exact h = Ok h' /\ HR h' (lo - (hi - lo)) hi (w + w) l /\ length (bins h') = length (bins h) /\
    num_bins h' = num_bins h /\ base h' = base h /\ is_scalable h' = is_scalable h /\ is_growable h' = is_growable h.
Proof.
  intros h lo hi w l m (E1 & E2 & E3 & W & EH & LP & NB & C & F) L NM B.
  rewrite (scale_low_once_eq exact h m L ltac:(lia) ltac:(lia) NM). eexists. split; [reflexivity|].
  pose proof (pairs_length m (bins h) L) as Lp.
  assert (LL : length (repeat 0%Z m ++ pairs (bins h)) = length (bins h)) by (rewrite app_length, repeat_length; lia).
  assert (Q2 : inject_Z (Z.of_nat 2) == 2) by reflexivity.
  assert (EQ : hi - lo == inject_Z (Z.of_nat m) * (w + w)).
  { rewrite EH, L. unfold edge. rewrite Nat2Z.inj_mul, inject_Z_mult, Q2. ring. }
  unfold HR. cbn [bin_low bin_high bin_width bins num_bins base is_scalable is_growable]. rewrite LL, E1, E2, E3. split; [|repeat split].
  split; [reflexivity|]. split; [reflexivity|]. split; [reflexivity|]. split; [lra|].
  split; [rewrite L; unfold edge; rewrite Nat2Z.inj_mul, inject_Z_mult, Q2; lra|].
  split; [exact LP|]. split; [exact NB|].
  assert (ED : forall k, edge (lo - (hi - lo)) (w + w) (m + k) == edge lo w (2 * k)).
  { intros k. unfold edge. rewrite !Nat2Z.inj_mul, !Nat2Z.inj_add, !inject_Z_plus, !inject_Z_mult, Q2, EQ. ring. }
  split.
  - intros i c Ec. destruct (Nat.lt_ge_cases i m) as [Li|Li].
    + rewrite nth_error_app1 in Ec by (rewrite repeat_length; lia). apply nth_repeat0 in Ec. subst c. symmetry. apply zcount_0. intros x Hx.
      rewrite Forall_forall in F. specialize (F x Hx). apply not_true_iff_false. rewrite in_range_iff. intros [_ A].
      pose proof (edge_mono (lo - (hi - lo)) (w + w) (S i) (m + 0) ltac:(lra) ltac:(lia)) as G. rewrite ED in G.
      change (2 * 0)%nat with 0%nat in G. rewrite edge_0 in G. lra.
    + rewrite nth_error_app2 in Ec by (rewrite repeat_length; lia). rewrite repeat_length in Ec.
      rewrite (pair_counts lo w m (bins h) l (i - m) c W L C B Ec).
      apply zcount_ext. intros x _. apply in_range_ext.
      * rewrite <- ED. now replace (m + (i - m))%nat with i by lia.
      * rewrite <- ED. now replace (m + S (i - m))%nat with (S i) by lia.
  - eapply Forall_impl; [|exact F]. cbn. intros x Hx.
    assert (lo <= hi) by (rewrite EH, <- (edge_0 lo w) at 1; apply edge_mono; [lra|lia]). lra.
Qed.

(** The two loops terminate: the range doubles. *)
Definition p2 (n : nat) : Q := inject_Z (2 ^ Z.of_nat n).
Lemma p2_0 : p2 0 = 1.
Proof. reflexivity. Qed.
Lemma p2_S : forall n, p2 (S n) == 2 * p2 n.
Proof. intros n. unfold p2. rewrite Nat2Z.inj_succ, Z.pow_succ_r, inject_Z_mult by lia. reflexivity. Qed.
Lemma p2_pos : forall n, 0 < p2 n.
Proof. intros n. unfold p2. change 0 with (inject_Z 0). rewrite <- Zlt_Qlt. apply Z.pow_pos_nonneg; lia. Qed.
Lemma exists_p2 : forall q d, 0 < d -> exists n, q < p2 n * d.
Proof.
  intros q d D. set (z := Qceiling (q / d)). exists (Z.to_nat z + 1)%nat.
  assert (q / d < p2 (Z.to_nat z + 1)).
  { apply Qle_lt_trans with (inject_Z z); [apply Qle_ceiling|]. unfold p2. rewrite <- Zlt_Qlt.
    pose proof (Z.pow_gt_lin_r 2 (Z.of_nat (Z.to_nat z + 1)) ltac:(lia) ltac:(lia)). lia. }
  assert (q == q / d * d) as -> by (field; lra). apply Qmult_lt_compat_r; assumption.
Qed.

Definition keeps (h h' : hist exact) : Prop :=
  length (bins h') = length (bins h) /\ num_bins h' = num_bins h /\ base h' = base h /\ is_scalable h' = is_scalable h /\ is_growable h' = is_growable h.
Lemma keeps_refl : forall h, keeps h h.
Proof. intros h. repeat split. Qed.
Lemma keeps_trans : forall a b c, keeps a b -> keeps b c -> keeps a c.
Proof. intros a b c (A1 & A2 & A3 & A4 & A5) (B1 & B2 & B3 & B4 & B5). repeat split; congruence. Qed.

Lemma scale_high_ok : forall n h lo hi w l m x fuel, HR h lo hi w l -> length (bins h) = (2 * m)%nat -> (Z.of_nat (length l) < 2 ^ 64)%Z ->
  x - lo < p2 n * (hi - lo) -> (n <= fuel)%nat ->
  exists h' hi' w', scale_high exact fuel h (Fin x) = Ok h' /\ HR h' lo hi' w' l /\ x < hi' /\ keeps h h'.
Proof.
  induction n as [|n IH]; intros h lo hi w l m x fuel R L B X LF.
  - rewrite p2_0 in X. exists h, hi, w. pose proof R as (E1 & E2 & _). split; [|split; [exact R|split; [lra|apply keeps_refl]]].
    destruct fuel; cbn [scale_high]; rewrite E2, nle_fin, (proj2 (Qle_bool_false hi x)) by lra; reflexivity.
  - destruct (Qlt_le_dec x hi) as [G|G].
    + exists h, hi, w. pose proof R as (E1 & E2 & _). split; [|split; [exact R|split; [lra|apply keeps_refl]]].
      destruct fuel; cbn [scale_high]; rewrite E2, nle_fin, (proj2 (Qle_bool_false hi x)) by lra; reflexivity.
    + destruct fuel as [|fuel]; [lia|]. destruct (high_once h lo hi w l m R L B) as (h1 & O1 & R1 & K).
      destruct (IH h1 lo (hi + (hi - lo)) (w + w) l m x fuel R1 ltac:(destruct K; lia) B) as (h' & hi' & w' & O2 & R2 & X2 & K2).
      * rewrite p2_S in X. lra.
      * lia.
      * exists h', hi', w'. split; [|split; [exact R2|split; [exact X2|apply (keeps_trans h h1 h'); [exact K|exact K2]]]].
        cbn [scale_high]. pose proof R as (E1 & E2 & _). rewrite E2, nle_fin, (proj2 (Qle_bool_iff hi x)) by lra. rewrite O1. exact O2.
Qed.
Lemma scale_low_ok : forall n h lo hi w l m x fuel, HR h lo hi w l -> length (bins h) = (2 * m)%nat -> (num_bins h <= 2 ^ 31)%Z -> (Z.of_nat (length l) < 2 ^ 64)%Z ->
  hi - x <= p2 n * (hi - lo) -> (n <= fuel)%nat ->
  exists h' lo' w', scale_low exact fuel h (Fin x) = Ok h' /\ HR h' lo' hi w' l /\ lo' <= x /\ keeps h h'.
Proof.
  induction n as [|n IH]; intros h lo hi w l m x fuel R L NM B X LF.
  - rewrite p2_0 in X. exists h, lo, w. pose proof R as (E1 & E2 & _). split; [|split; [exact R|split; [lra|apply keeps_refl]]].
    destruct fuel; cbn [scale_low]; rewrite E1, nlt_fin, (proj2 (Qle_bool_iff lo x)) by lra; reflexivity.
  - destruct (Qlt_le_dec x lo) as [G|G].
    + destruct fuel as [|fuel]; [lia|]. destruct (low_once h lo hi w l m R L NM B) as (h1 & O1 & R1 & K).
      destruct (IH h1 (lo - (hi - lo)) hi (w + w) l m x fuel R1 ltac:(destruct K; lia) ltac:(destruct K as (_ & K2 & _); lia) B) as (h' & lo' & w' & O2 & R2 & X2 & K2).
      * rewrite p2_S in X. lra.
      * lia.
      * exists h', lo', w'. split; [|split; [exact R2|split; [exact X2|apply (keeps_trans h h1 h'); [exact K|exact K2]]]].
        cbn [scale_low]. pose proof R as (E1 & E2 & _). rewrite E1, nlt_fin, (proj2 (Qle_bool_false lo x)) by lra. cbn [negb]. rewrite O1. exact O2.
    + exists h, lo, w. pose proof R as (E1 & E2 & _). split; [|split; [exact R|split; [lra|apply keeps_refl]]].
      destruct fuel; cbn [scale_low]; rewrite E1, nlt_fin, (proj2 (Qle_bool_iff lo x)) by lra; reflexivity.
Qed.

Definition scal (h : hist exact) : Prop := is_scalable h = true /\ is_growable h = false /\ Nat.Even (length (bins h)) /\ (num_bins h <= 2 ^ 31)%Z.
Lemma HR_range : forall h lo hi w l, HR h lo hi w l -> lo < hi.
Proof.
  intros h lo hi w l (_ & _ & _ & W & E & L & _). rewrite E. apply Qlt_le_trans with (edge lo w 1); [|apply edge_mono; [lra|lia]].
  rewrite edge_S, edge_0. lra.
Qed.
Lemma HR_base : forall h lo hi w l s, HR h lo hi w l -> HR (with_base exact h s) lo hi w l.
Proof. intros h lo hi w l s H. exact H. Qed.

Lemma finish_add : forall h2 lo' hi' w' l x, HR h2 lo' hi' w' l -> lo' <= x -> x < hi' -> (num_bins h2 < 2 ^ 32)%Z -> (Z.of_nat (length l) + 1 < 2 ^ 64)%Z ->
  exists h', (let! bin := sampleBin exact h2 (Fin x) in
             let! c := zget (bins h2) bin in
             let! b := zput (bins h2) bin (u64 (c + 1)) in
             Ok (with_bins exact h2 b)) = Ok h' /\ HR h' lo' hi' w' (l ++ [x]) /\ keeps h2 h'.
Proof.
  intros h2 lo' hi' w' l x R2 X1 X2 NB B. destruct (add_inside h2 lo' hi' w' l x R2 X1 X2 NB B) as (b & E & R' & L').
  exists (with_bins exact h2 b). split; [exact E|]. split; [exact R'|]. split; [exact L'|repeat split].
Qed.
Lemma scale_ok : forall h lo hi w l x, HR h lo hi w l -> scal h -> (Z.of_nat (length l) + 1 < 2 ^ 64)%Z ->
  exists N, forall fuel, (N <= fuel)%nat -> exists h' lo' hi' w', scale exact fuel h (Fin x) = Ok h' /\ HR h' lo' hi' w' l /\ lo' <= x /\ x < hi' /\ keeps h h'.
Proof.
  intros h lo hi w l x R (S1 & S2 & [m Em] & S4) B. pose proof (HR_range _ _ _ _ _ R) as LH. pose proof R as (E1 & E2 & _).
  destruct (Qlt_le_dec x lo) as [G|G].
  - destruct (exists_p2 (hi - x) (hi - lo)) as (n & Hn); [lra|]. exists n. intros fuel LF.
    destruct (scale_low_ok n h lo hi w l m x fuel R Em S4 ltac:(lia) ltac:(lra) LF) as (h1 & lo' & w' & O1 & R1 & X1 & K1).
    exists h1, lo', hi, w'. unfold scale. rewrite S1, E1, nlt_fin, (proj2 (Qle_bool_false lo x) G). cbn [negb orb andb]. rewrite O1. cbn [bind].
    pose proof R1 as (_ & F2 & _). split; [|split; [exact R1|split; [exact X1|split; [lra|exact K1]]]].
    destruct fuel; cbn [scale_high]; rewrite F2, nle_fin, (proj2 (Qle_bool_false hi x)) by lra; reflexivity.
  - assert (SL : forall f, scale_low exact f h (Fin x) = Ok h).
    { intros f. destruct f; cbn [scale_low]; rewrite E1, nlt_fin, (proj2 (Qle_bool_iff lo x) G); reflexivity. }
    destruct (Qlt_le_dec x hi) as [G'|G'].
    + exists 0%nat. intros fuel _. exists h, lo, hi, w. split; [|split; [exact R|split; [exact G|split; [exact G'|apply keeps_refl]]]].
      unfold scale. rewrite E1, E2, nlt_fin, nle_fin, (proj2 (Qle_bool_iff lo x) G), (proj2 (Qle_bool_false hi x) G'). cbn [negb orb]. now rewrite andb_false_r.
    + destruct (exists_p2 (x - lo) (hi - lo)) as (n & Hn); [lra|]. exists n. intros fuel LF.
      destruct (scale_high_ok n h lo hi w l m x fuel R Em ltac:(lia) ltac:(lra) LF) as (h1 & hi' & w' & O1 & R1 & X1 & K1).
      exists h1, lo, hi', w'. split; [|split; [exact R1|split; [exact G|split; [exact X1|exact K1]]]].
      unfold scale. rewrite S1, E1, E2, nle_fin, (proj2 (Qle_bool_iff hi x) G'), orb_true_r. cbn [andb]. rewrite SL. exact O1.
Qed.
Lemma scal_add : forall h lo hi w l x, HR h lo hi w l -> scal h -> (Z.of_nat (length l) + 1 < 2 ^ 64)%Z ->
  exists N, forall fuel, (N <= fuel)%nat -> exists h' lo' hi' w', h_add exact fuel h (Fin x) = Ok h' /\ HR h' lo' hi' w' (l ++ [x]) /\ scal h' /\
    length (bins h') = length (bins h) /\ base h' = st_add exact (base h) (Fin x).
Proof.
  intros h lo hi w l x R SC B. pose proof SC as (S1 & S2 & S3 & S4).
  set (h0 := with_base exact h (st_add exact (base h) (Fin x))).
  assert (GR : grow exact h0 (Fin x) = Ok h0) by (unfold grow; cbn [h0 with_base is_growable]; now rewrite S2).
  destruct (scale_ok h0 lo hi w l x R SC B) as (N & HN). exists N. intros fuel LF.
  destruct (HN fuel LF) as (h2 & lo' & hi' & w' & O2 & R2 & X1 & X2 & K).
  destruct (finish_add h2 lo' hi' w' l x R2 X1 X2) as (h' & E & R' & K').
  - destruct K as (_ & -> & _). change (num_bins h < 2 ^ 32)%Z. lia.
  - exact B.
  - destruct (keeps_trans _ _ _ K K') as (K1 & K2 & K3 & K4 & K5). exists h', lo', hi', w'. split; [|split; [exact R'|split; [|split; [exact K1|exact K3]]]].
    + unfold h_add. fold h0. rewrite GR. cbn [bind]. rewrite O2. cbn [bind]. exact E.
    + unfold scal. rewrite K1, K2, K4, K5. exact SC.
Qed.
Section Mono.
Variable A : arith.
Lemma scale_low_mono : forall f g h (v : A) r, scale_low A f h v = Ok r -> (f <= g)%nat -> scale_low A g h v = Ok r.
Proof.
  induction f as [|f IH]; intros g h v r E L; destruct g as [|g]; try lia; cbn [scale_low] in *; destruct (nlt v (bin_low h)); try discriminate; auto.
  destruct (scale_low_once A h) as [h1| | |]; try discriminate. cbn [bind] in *. apply IH; [exact E|lia].
Qed.
Lemma scale_high_mono : forall f g h (v : A) r, scale_high A f h v = Ok r -> (f <= g)%nat -> scale_high A g h v = Ok r.
Proof.
  induction f as [|f IH]; intros g h v r E L; destruct g as [|g]; try lia; cbn [scale_high] in *; destruct (nle (bin_high h) v); try discriminate; auto.
  destruct (scale_high_once A h) as [h1| | |]; try discriminate. cbn [bind] in *. apply IH; [exact E|lia].
Qed.
Lemma h_add_mono : forall f g h (v : A) r, h_add A f h v = Ok r -> (f <= g)%nat -> h_add A g h v = Ok r.
Proof.
  intros f g h v r E L. unfold h_add in *. destruct (grow A _ v) as [h1| | |]; try discriminate. cbn [bind] in *.
  assert (S : forall h2, scale A f h1 v = Ok h2 -> scale A g h1 v = Ok h2).
  { intros h2 E2. unfold scale in *. destruct (is_scalable h1 && _); [|exact E2].
    destruct (scale_low A f h1 v) as [h3| | |] eqn:E3; try discriminate. cbn [bind] in E2.
    rewrite (scale_low_mono f g h1 v h3 E3 L). cbn [bind]. now apply (scale_high_mono f g). }
  destruct (scale A f h1 v) as [h2| | |]; try discriminate. rewrite (S h2 eq_refl). exact E.
Qed.
Lemma h_adds_mono : forall l f g h (r : hist A), h_adds A f h l = Ok r -> (f <= g)%nat -> h_adds A g h l = Ok r.
Proof.
  induction l as [|v l IH]; intros f g h r E L; cbn [h_adds] in *; [exact E|].
  destruct (h_add A f h v) as [h1| | |] eqn:E1; try discriminate. cbn [bind] in E. rewrite (h_add_mono f g h v h1 E1 L). cbn [bind]. now apply (IH f g).
Qed.
Lemma h_adds_app : forall l f h m, h_adds A f h (l ++ m) = let! h' := h_adds A f h l in h_adds A f h' m.
Proof. induction l as [|v l IH]; intros f h m; cbn [h_adds app bind]; [reflexivity|]. destruct (h_add A f h v); cbn [bind]; auto. Qed.
End Mono.
Lemma scal_adds : forall xs h lo hi w l, HR h lo hi w l -> scal h -> (Z.of_nat (length l + length xs) < 2 ^ 64)%Z ->
  exists N h' lo' hi' w', h_adds exact N h (map Fin xs) = Ok h' /\ HR h' lo' hi' w' (l ++ xs) /\ scal h' /\ length (bins h') = length (bins h).
Proof.
  induction xs as [|x xs IH]; intros h lo hi w l R SC B.
  - exists 0%nat, h, lo, hi, w. rewrite app_nil_r. split; [reflexivity|]. split; [exact R|]. split; [exact SC|reflexivity].
  - cbn [length] in B. destruct (scal_add h lo hi w l x R SC ltac:(lia)) as (N1 & H1).
    destruct (H1 N1 ltac:(lia)) as (h1 & lo1 & hi1 & w1 & O1 & R1 & SC1 & L1 & _).
    destruct (IH h1 lo1 hi1 w1 (l ++ [x]) R1 SC1 ltac:(rewrite app_length; cbn [length]; lia)) as (N2 & h2 & lo2 & hi2 & w2 & O2 & R2 & SC2 & L2).
    exists (Nat.max N1 N2), h2, lo2, hi2, w2. rewrite <- app_assoc in R2. split; [|split; [exact R2|split; [exact SC2|congruence]]].
    cbn [map h_adds]. rewrite (h_add_mono exact N1 (Nat.max N1 N2) h (Fin x) h1 O1 ltac:(lia)). cbn [bind].
    apply (h_adds_mono exact _ N2); [exact O2|lia].
Qed.

(** Growable histograms. [L, H] holds the initial range and all samples; [d] = H - L. *)
Definition grows (h : hist exact) : Prop := is_scalable h = false /\ is_growable h = true.
Definition gbound (L H lo hi w : Q) : Prop :=
  lo <= H /\ L <= hi /\
  hi - lo <= 4 * (H - L) + 3 * w /\ (L <= lo \/ hi <= H -> L - (H - L) - w <= lo /\ hi <= H + (H - L) + w).

Lemma grown_bins_eq : forall n f, (0 < n)%Z -> (0 <= f)%Z -> (2 * n < 2 ^ 32)%Z -> (f + 1 < 2 ^ 31)%Z -> grown_bins n f = Z.max (2 * n) (f + 1).
Proof.
  intros n f N F B1 B2. unfold grown_bins, u32. rewrite (Z.mod_small (f + 1)), (Z.mod_small (2 * (f + 1))), (Z.mod_small (n * 2)) by lia.
  rewrite Z.mul_comm, Z.div_mul by lia. destruct (f + 1 <? n * 2)%Z eqn:E; lia.
Qed.
Lemma len_bound : forall (k : nat) c w, 0 < w -> inject_Z (Z.of_nat k) * w < inject_Z c * w -> (Z.of_nat k < c)%Z.
Proof. intros k c w W H. apply Qmult_lt_r in H; [|exact W]. now rewrite <- Zlt_Qlt in H. Qed.

Lemma grow_high_ok : forall h lo hi w l L H x, HR h lo hi w l -> grows h -> gbound L H lo hi w -> L <= H ->
  4 * (H - L) + 3 * w < inject_Z (2 ^ 31) * w -> H < inject_Z half_max -> hi <= x -> x <= H ->
  exists h' hi', grow exact h (Fin x) = Ok h' /\ HR h' lo hi' w l /\ grows h' /\ gbound L H lo hi' w /\ x < hi' /\ base h' = base h.
Proof.
  intros h lo hi w l L H x R (G1 & G2) (B1 & B2 & B3 & B4) LH BW HM X1 X2. pose proof (HR_range _ _ _ _ _ R) as LT.
  destruct B4 as [B4 B5]; [right; lra|].
  pose proof R as (E1 & E2 & E3 & W & EH & LP & NB & C & F).
  destruct (floor_bin lo w x W ltac:(lra)) as (k & K1 & K2 & K3). set (N := length (bins h)) in *.
  unfold edge in EH, K2, K3. rewrite inject_succ in K3.
  assert (KB : (Z.of_nat (S k) < 2 ^ 31)%Z) by (apply (len_bound _ _ w W); rewrite inject_succ; lra).
  assert (NBd : (Z.of_nat N < 2 ^ 31)%Z) by (apply (len_bound _ _ w W); lra).
  set (n := Z.max (2 * Z.of_nat N) (Z.of_nat k + 1)). set (n' := Z.to_nat n).
  assert (GB : grown_bins (num_bins h) (Z.of_nat k) = n) by (rewrite NB; apply grown_bins_eq; lia).
  assert (En : n = Z.of_nat n') by (unfold n'; lia).
  assert (IN : inject_Z n == 2 * inject_Z (Z.of_nat N) /\ inject_Z (Z.of_nat k) + 1 <= 2 * inject_Z (Z.of_nat N) \/
               inject_Z n == inject_Z (Z.of_nat k) + 1 /\ 2 * inject_Z (Z.of_nat N) <= inject_Z (Z.of_nat k) + 1).
  { change 2 with (inject_Z 2). change 1 with (inject_Z 1). rewrite <- inject_Z_mult, <- inject_Z_plus, <- !Zle_Qle. unfold n.
    destruct (Z.max_spec (2 * Z.of_nat N) (Z.of_nat k + 1)) as [[? ->]|[? ->]]; [right|left]; (split; [reflexivity|lia]). }
  assert (HIN : exists t, inject_Z n * w == t /\ (t == 2 * (hi - lo) \/ t <= x - lo + w) /\ x - lo < t).
  { exists (inject_Z n * w). split; [reflexivity|]. destruct IN as [[I1 I2]|[I1 I2]]; rewrite I1; split.
    - left. lra.
    - assert ((inject_Z (Z.of_nat k) + 1) * w <= 2 * inject_Z (Z.of_nat N) * w) by (apply Qmult_le_compat_r; lra). lra.
    - right. lra.
    - lra. }
  destruct HIN as (t & T1 & T2 & T3).
  eexists. exists (lo + inject_Z n * w). split; [|split; [|split; [|split; [|split]]]].
  - unfold grow. rewrite G2, E1, E2, E3, !nle_fin, (proj2 (Qle_bool_iff hi x) X1), orb_true_r. cbn [andb].
    change (of_int half_max) with (Fin (inject_Z half_max)). rewrite nlt_fin, (proj2 (Qle_bool_false (inject_Z half_max) x)) by lra. cbn [negb invariant bind].
    change (@nsub exact (Fin x) (Fin lo)) with (Fin (x - lo)).
    rewrite (floor_fin (x - lo) w (Z.of_nat k)) by (lra || exact K1 || lia). cbn [bind]. rewrite GB.
    replace (num_bins h <=? n)%Z with true by lia. reflexivity.
  - unfold HR. cbn [bin_low bin_high bin_width bins num_bins nadd nmul of_int exact xadd xmul].
    rewrite app_length, repeat_length. fold N. replace (N + Z.to_nat (n - num_bins h))%nat with n' by lia.
    split; [reflexivity|]. split; [reflexivity|]. split; [reflexivity|]. split; [exact W|]. split; [unfold edge; rewrite En; reflexivity|].
    split; [lia|]. split; [lia|]. split.
    + intros i c Ec. destruct (Nat.lt_ge_cases i N) as [Li|Li].
      * rewrite nth_error_app1 in Ec by exact Li. now apply C.
      * rewrite nth_error_app2 in Ec by exact Li. apply nth_repeat0 in Ec. subst c. symmetry. apply zcount_0. intros y Hy.
        rewrite Forall_forall in F. specialize (F y Hy). apply not_true_iff_false. rewrite in_range_iff. intros [A _].
        pose proof (edge_mono lo w N i ltac:(lra) Li) as M. unfold edge at 1 in M. lra.
    + eapply Forall_impl; [|exact F]. cbn. intros y Hy. split; [lra|]. rewrite T1. lra.
  - split; [exact G1|reflexivity || exact G2].
  - unfold gbound. rewrite T1. repeat split; try lra; intros [Q|Q]; lra.
  - rewrite T1. lra.
  - reflexivity.
Qed.

Lemma grow_low_ok : forall h lo hi w l L H x, HR h lo hi w l -> grows h -> gbound L H lo hi w -> L <= H ->
  4 * (H - L) + 3 * w < inject_Z (2 ^ 31) * w -> - inject_Z half_max < L -> x < lo -> L <= x ->
  exists h' lo', grow exact h (Fin x) = Ok h' /\ HR h' lo' hi w l /\ grows h' /\ gbound L H lo' hi w /\ lo' <= x /\ base h' = base h.
Proof.
  intros h lo hi w l L H x R (G1 & G2) (B1 & B2 & B3 & B4) LH BW HM X1 X2. pose proof (HR_range _ _ _ _ _ R) as LT.
  destruct B4 as [B4 B5]; [left; lra|].
  pose proof R as (E1 & E2 & E3 & W & EH & LP & NB & C & F).
  destruct (floor_bin x w hi W ltac:(lra)) as (k & K1 & K2 & K3). set (N := length (bins h)) in *.
  unfold edge in EH, K2, K3. rewrite inject_succ in K3.
  assert (KB : (Z.of_nat (S k) < 2 ^ 31)%Z) by (apply (len_bound _ _ w W); rewrite inject_succ; lra).
  assert (NBd : (Z.of_nat N < 2 ^ 31)%Z) by (apply (len_bound _ _ w W); lra).
  set (n := Z.max (2 * Z.of_nat N) (Z.of_nat k + 1)). set (n' := Z.to_nat n).
  assert (GB : grown_bins (num_bins h) (Z.of_nat k) = n) by (rewrite NB; apply grown_bins_eq; lia).
  assert (En : n = Z.of_nat n') by (unfold n'; lia).
  assert (IN : inject_Z n == 2 * inject_Z (Z.of_nat N) /\ inject_Z (Z.of_nat k) + 1 <= 2 * inject_Z (Z.of_nat N) \/
               inject_Z n == inject_Z (Z.of_nat k) + 1 /\ 2 * inject_Z (Z.of_nat N) <= inject_Z (Z.of_nat k) + 1).
  { change 2 with (inject_Z 2). change 1 with (inject_Z 1). rewrite <- inject_Z_mult, <- inject_Z_plus, <- !Zle_Qle. unfold n.
    destruct (Z.max_spec (2 * Z.of_nat N) (Z.of_nat k + 1)) as [[? ->]|[? ->]]; [right|left]; (split; [reflexivity|lia]). }
  assert (HIN : exists t, inject_Z n * w == t /\ (t == 2 * (hi - lo) \/ t <= hi - x + w) /\ hi - x < t).
  { exists (inject_Z n * w). split; [reflexivity|]. destruct IN as [[I1 I2]|[I1 I2]]; rewrite I1; split.
    - left. lra.
    - assert ((inject_Z (Z.of_nat k) + 1) * w <= 2 * inject_Z (Z.of_nat N) * w) by (apply Qmult_le_compat_r; lra). lra.
    - right. lra.
    - lra. }
  destruct HIN as (t & T1 & T2 & T3).
  eexists. exists (hi - inject_Z n * w). split; [|split; [|split; [|split; [|split]]]].
  - unfold grow. rewrite G2, E1, E2, E3, !nlt_fin, nle_fin, (proj2 (Qle_bool_false lo x) X1). cbn [negb orb andb].
    rewrite (proj2 (Qle_bool_false hi x)) by lra.
    change (of_int half_max) with (Fin (inject_Z half_max)). change (@nopp exact (Fin x)) with (Fin (- x)).
    rewrite nlt_fin, (proj2 (Qle_bool_false (inject_Z half_max) (- x))) by lra. cbn [negb invariant bind].
    change (@nsub exact (Fin hi) (Fin x)) with (Fin (hi - x)).
    rewrite (floor_fin (hi - x) w (Z.of_nat k)) by (lra || exact K1 || lia). cbn [bind]. rewrite GB.
    replace (num_bins h <=? n)%Z with true by lia. reflexivity.
  - unfold HR. cbn [bin_low bin_high bin_width bins num_bins nsub nmul of_int exact xsub xadd xopp xmul].
    rewrite app_length, repeat_length. fold N. replace (Z.to_nat (n - num_bins h) + N)%nat with n' by lia.
    split; [reflexivity|]. split; [reflexivity|]. split; [reflexivity|]. split; [exact W|]. split; [unfold edge; rewrite En; ring|].
    split; [lia|]. split; [lia|].
    set (z := Z.to_nat (n - num_bins h)). assert (Zn : (z + N = n')%nat) by lia.
    assert (ED : forall i, edge (hi - inject_Z n * w) w (z + i) == edge lo w i).
    { intros i. unfold edge. rewrite EH, En, <- Zn, !Nat2Z.inj_add, !inject_Z_plus. ring. }
    split.
    + intros i c Ec. destruct (Nat.lt_ge_cases i z) as [Li|Li].
      * rewrite nth_error_app1 in Ec by (rewrite repeat_length; exact Li). apply nth_repeat0 in Ec. subst c. symmetry. apply zcount_0. intros y Hy.
        rewrite Forall_forall in F. specialize (F y Hy). apply not_true_iff_false. rewrite in_range_iff. intros [_ A].
        pose proof (edge_mono (hi - inject_Z n * w) w (S i) (z + 0) ltac:(lra) ltac:(lia)) as M. rewrite ED, edge_0 in M. lra.
      * rewrite nth_error_app2, repeat_length in Ec by (rewrite repeat_length; exact Li). apply C in Ec. rewrite Ec.
        apply zcount_ext. intros y _. apply in_range_ext.
        -- rewrite <- ED. now replace (z + (i - z))%nat with i by lia.
        -- rewrite <- ED. now replace (z + S (i - z))%nat with (S i) by lia.
    + eapply Forall_impl; [|exact F]. cbn. intros y Hy. rewrite T1. split; lra.
  - split; [exact G1|reflexivity || exact G2].
  - unfold gbound. rewrite T1. repeat split; try lra; intros [Q|Q]; lra.
  - rewrite T1. lra.
  - reflexivity.
Qed.

Lemma grow_ok : forall h lo hi w l L H x, HR h lo hi w l -> grows h -> gbound L H lo hi w -> L <= H ->
  4 * (H - L) + 3 * w < inject_Z (2 ^ 31) * w -> - inject_Z half_max < L -> H < inject_Z half_max -> L <= x -> x <= H ->
  exists h' lo' hi', grow exact h (Fin x) = Ok h' /\ HR h' lo' hi' w l /\ grows h' /\ gbound L H lo' hi' w /\ lo' <= x /\ x < hi' /\ base h' = base h.
Proof.
  intros h lo hi w l L H x R G B LH BW M1 M2 X1 X2. pose proof (HR_range _ _ _ _ _ R) as LT.
  destruct (Qlt_le_dec x lo) as [P|P].
  - destruct (grow_low_ok h lo hi w l L H x R G B LH BW M1 P X1) as (h' & lo' & ?). exists h', lo', hi. intuition lra.
  - destruct (Qlt_le_dec x hi) as [P'|P'].
    + exists h, lo, hi. pose proof R as (E1 & E2 & _). split; [|split; [exact R|split; [exact G|split; [exact B|split; [exact P|split; [exact P'|reflexivity]]]]]].
      unfold grow. rewrite E1, E2, nlt_fin, nle_fin, (proj2 (Qle_bool_iff lo x) P), (proj2 (Qle_bool_false hi x) P'). cbn [negb orb]. now rewrite andb_false_r.
    + destruct (grow_high_ok h lo hi w l L H x R G B LH BW M2 P' X2) as (h' & hi' & ?). exists h', lo, hi'. intuition lra.
Qed.
Lemma grows_bins : forall h lo hi w l L H, HR h lo hi w l -> gbound L H lo hi w -> 4 * (H - L) + 3 * w < inject_Z (2 ^ 31) * w -> (num_bins h < 2 ^ 31)%Z.
Proof.
  intros h lo hi w l L H (E1 & E2 & E3 & W & EH & LP & NB & C & F) (B1 & B2 & B3 & B4) BW. rewrite NB. apply (len_bound _ _ w W). unfold edge in EH. lra.
Qed.
Lemma grows_adds : forall xs h lo hi w l L H fuel, HR h lo hi w l -> grows h -> gbound L H lo hi w -> L <= H ->
  4 * (H - L) + 3 * w < inject_Z (2 ^ 31) * w -> - inject_Z half_max < L -> H < inject_Z half_max ->
  Forall (fun x => L <= x /\ x <= H) xs -> (Z.of_nat (length l + length xs) < 2 ^ 64)%Z ->
  exists h' lo' hi', h_adds exact fuel h (map Fin xs) = Ok h' /\ HR h' lo' hi' w (l ++ xs) /\ grows h' /\ gbound L H lo' hi' w.
Proof.
  induction xs as [|x xs IH]; intros h lo hi w l L H fuel R G B LH BW M1 M2 FX NL.
  - exists h, lo, hi. rewrite app_nil_r. split; [reflexivity|]. split; [exact R|split; [exact G|exact B]].
  - inversion_clear FX as [|? ? [X1 X2] FX']. cbn [length] in NL.
    set (h0 := with_base exact h (st_add exact (base h) (Fin x))).
    destruct (grow_ok h0 lo hi w l L H x R G B LH BW M1 M2 X1 X2) as (h1 & lo1 & hi1 & O1 & R1 & G1 & B1 & Y1 & Y2 & _).
    assert (S1 : scale exact fuel h1 (Fin x) = Ok h1) by (unfold scale; destruct G1 as [-> _]; reflexivity).
    destruct (finish_add h1 lo1 hi1 w l x R1 Y1 Y2) as (h2 & O2 & R2 & K2).
    + pose proof (grows_bins h1 lo1 hi1 w l L H R1 B1 BW). lia.
    + lia.
    + assert (G2 : grows h2) by (destruct K2 as (_ & _ & _ & K4 & K5); unfold grows; rewrite K4, K5; exact G1).
      destruct (IH h2 lo1 hi1 w (l ++ [x]) L H fuel R2 G2 B1 LH BW M1 M2 FX' ltac:(rewrite app_length; cbn [length]; lia)) as (h3 & lo3 & hi3 & O3 & R3 & G3 & B3).
      exists h3, lo3, hi3. rewrite <- app_assoc in R3. split; [|auto].
      cbn [map h_adds]. unfold h_add at 1. fold h0. rewrite O1. cbn [bind]. rewrite S1. cbn [bind]. rewrite O2. cbn [bind]. exact O3.
Qed.

(** Fixed histograms clamp. *)
Definition HF (h : hist exact) (lo hi w : Q) (l : list Q) : Prop :=
  bin_low h = Fin lo /\ bin_high h = Fin hi /\ bin_width h = Fin w /\ 0 < w /\ hi == edge lo w (length (bins h)) /\
  (0 < length (bins h))%nat /\ num_bins h = Z.of_nat (length (bins h)) /\ is_scalable h = false /\ is_growable h = false /\
  bins_count_clamped lo w (bins h) l.
Lemma clamped_iff : forall lo w n i x, clamped lo w n i x = true <-> (i = 0%nat \/ edge lo w i <= x) /\ (S i = n \/ x < edge lo w (S i)).
Proof.
  intros. unfold clamped. rewrite andb_true_iff, !orb_true_iff, negb_true_iff, !Nat.eqb_eq, Qle_bool_iff, Qle_bool_false. tauto.
Qed.
Lemma fixed_bin : forall h lo hi w l x, HF h lo hi w l -> (num_bins h < 2 ^ 32)%Z ->
  exists k, sampleBin exact h (Fin x) = Ok (Z.of_nat k) /\ (k < length (bins h))%nat /\
    forall i, (i < length (bins h))%nat -> clamped lo w (length (bins h)) i x = (i =? k)%nat.
Proof.
  intros h lo hi w l x (E1 & E2 & E3 & W & EH & LP & NB & _) B. set (n := length (bins h)) in *.
  assert (LH : lo < hi) by (rewrite EH; apply Qlt_le_trans with (edge lo w 1); [rewrite edge_S, edge_0; lra|apply edge_mono; [lra|lia]]).
  unfold sampleBin. rewrite E1, E2, E3, !nle_fin.
  destruct (Qle_bool_spec' x lo) as [L|L].
  - exists 0%nat. repeat split; [exact LP|]. intros i Li. apply eq_true_iff_eq. rewrite clamped_iff, Nat.eqb_eq. split.
    + intros [[I|I] _]; [exact I|]. destruct i; [reflexivity|].
      pose proof (edge_mono lo w 1 (S i) ltac:(lra) ltac:(lia)) as M. rewrite edge_S, edge_0 in M. lra.
    + intros ->. split; [now left|]. right. rewrite edge_S, edge_0. lra.
  - destruct (Qle_bool_spec' hi x) as [G|G].
    + exists (n - 1)%nat. repeat split; [unfold u32; rewrite Z.mod_small by lia; f_equal; lia|lia|]. intros i Li. apply eq_true_iff_eq. rewrite clamped_iff, Nat.eqb_eq. split.
      * intros [_ [I|I]]; [lia|]. pose proof (edge_mono lo w (S i) n ltac:(lra) ltac:(lia)). lra.
      * intros ->. split; [|left; lia]. right. pose proof (edge_mono lo w (n - 1) n ltac:(lra) ltac:(lia)). lra.
    + destruct (floor_bin lo w x W ltac:(lra)) as (k & K1 & K2 & K3).
      assert (KL : (k < n)%nat) by (apply (edge_lt_inv lo w); [exact W|lra]).
      exists k. split; [|split; [exact KL|]].
      * change (@nsub exact (Fin x) (Fin lo)) with (Fin (x - lo)). apply floor_fin; [lra|exact K1|lia].
      * intros i Li. apply eq_true_iff_eq. rewrite clamped_iff, Nat.eqb_eq. split.
        -- intros [A1 A2].
           assert (i < S k)%nat. { destruct A1 as [->|A1]; [lia|]. apply (edge_lt_inv lo w); [exact W|lra]. }
           assert (k < S i)%nat. { destruct A2 as [A2|A2]; [lia|]. apply (edge_lt_inv lo w); [exact W|lra]. }
           lia.
        -- intros ->. auto.
Qed.
Lemma fixed_add : forall h lo hi w l x fuel, HF h lo hi w l -> (num_bins h < 2 ^ 32)%Z -> (Z.of_nat (length l) + 1 < 2 ^ 64)%Z ->
  exists h', h_add exact fuel h (Fin x) = Ok h' /\ HF h' lo hi w (l ++ [x]) /\ num_bins h' = num_bins h /\ base h' = st_add exact (base h) (Fin x).
Proof.
  intros h lo hi w l x fuel R B NL. pose proof R as (E1 & E2 & E3 & W & EH & LP & NB & S & G & C).
  set (h0 := with_base exact h (st_add exact (base h) (Fin x))).
  assert (R0 : HF h0 lo hi w l) by exact R.
  destruct (fixed_bin h0 lo hi w l x R0 B) as (k & SB & KL & CU).
  destruct (bump (clamped lo w (length (bins h0))) (bins h0) l x k C KL CU NL) as (c & b & G1 & P1 & Lb & C').
  exists (with_bins exact h0 b). split; [|split; [|split; reflexivity]].
  - unfold h_add. fold h0. unfold grow, scale. change (is_growable h0) with (is_growable h). rewrite G. cbn [andb bind].
    change (is_scalable h0) with (is_scalable h). rewrite S. cbn [andb bind].
    rewrite SB. cbn [bind]. rewrite G1. cbn [bind]. rewrite P1. reflexivity.
  - unfold HF, with_bins. cbn [bin_low bin_high bin_width bins num_bins is_scalable is_growable]. rewrite Lb.
    repeat split; auto. unfold bins_count_clamped. rewrite Lb. exact C'.
Qed.
Lemma fixed_adds : forall xs h lo hi w l fuel, HF h lo hi w l -> (num_bins h < 2 ^ 32)%Z -> (Z.of_nat (length l + length xs) < 2 ^ 64)%Z ->
  exists h', h_adds exact fuel h (map Fin xs) = Ok h' /\ HF h' lo hi w (l ++ xs) /\ num_bins h' = num_bins h.
Proof.
  induction xs as [|x xs IH]; intros h lo hi w l fuel R B NL.
  - exists h. rewrite app_nil_r. split; [reflexivity|]. split; [exact R|reflexivity].
  - cbn [length] in NL. destruct (fixed_add h lo hi w l x fuel R B ltac:(lia)) as (h1 & O1 & R1 & N1 & _).
    destruct (IH h1 lo hi w (l ++ [x]) fuel R1 ltac:(lia) ltac:(rewrite app_length; cbn [length]; lia)) as (h2 & O2 & R2 & N2).
    exists h2. rewrite <- app_assoc in R2. split; [|split; [exact R2|congruence]]. cbn [map h_adds]. rewrite O1. exact O2.
Qed.

(** The constructor. *)
Definition even_bins (bins_in : Z) : Z := (2 * ((bins_in + 1) / 2))%Z.
Lemma new_eq : forall bins_in lo hi s g, (0 < bins_in < 2 ^ 31)%Z -> lo < hi -> g && s = false ->
  exists h w, h_new exact bins_in (Fin lo) (Fin hi) s g = Ok h /\ bin_low h = Fin lo /\ bin_high h = Fin hi /\ bin_width h = Fin w /\
    w == (hi - lo) / inject_Z (even_bins bins_in) /\ num_bins h = even_bins bins_in /\ bins h = repeat 0%Z (Z.to_nat (even_bins bins_in)) /\
    is_scalable h = s /\ is_growable h = g /\ base h = st_new exact.
Proof.
  intros bins_in lo hi s g B LH GS. unfold h_new, even_bins. rewrite nle_fin, (proj2 (Qle_bool_iff lo hi)) by lra. cbn [invariant bind].
  replace (0 <? bins_in)%Z with true by lia. rewrite GS. cbn [negb invariant bind].
  assert (U : u32 (bins_in + 1) = (bins_in + 1)%Z) by (unfold u32; apply Z.mod_small; lia). rewrite !U.
  unfold h_reset. cbn [base num_bins bin_high bin_low bins is_scalable is_growable]. rewrite repeat_length.
  set (e := (2 * ((bins_in + 1) / 2))%Z). assert (E0 : (0 < e)%Z) by (unfold e; Z.to_euclidean_division_equations; lia).
  assert (N0 : ~ inject_Z e == 0) by (unfold Qeq; cbn [Qnum Qden inject_Z]; lia).
  eexists. exists ((hi + - lo) / inject_Z e). split; [reflexivity|]. cbn [bin_low bin_high bin_width num_bins bins is_scalable is_growable base].
  cbn [ndiv nsub of_int exact xdiv xsub xadd xopp]. rewrite (proj2 (Qeq_bool_false _ _) N0). repeat split.
Qed.
Lemma new_width : forall bins_in lo hi w, (0 < bins_in < 2 ^ 31)%Z -> lo < hi -> w == (hi - lo) / inject_Z (even_bins bins_in) ->
  0 < w /\ hi == edge lo w (Z.to_nat (even_bins bins_in)) /\ (0 < Z.to_nat (even_bins bins_in))%nat /\ (even_bins bins_in <= 2 ^ 31)%Z /\ Nat.Even (Z.to_nat (even_bins bins_in)).
Proof.
  intros bins_in lo hi w B LH E. unfold even_bins in *. set (e := (2 * ((bins_in + 1) / 2))%Z) in *.
  assert (E0 : (0 < e)%Z) by (unfold e; Z.to_euclidean_division_equations; lia).
  assert (P : 0 < inject_Z e) by (unfold Qlt; cbn [Qnum Qden inject_Z]; lia). repeat split.
  - rewrite E. apply Qlt_shift_div_l; lra.
  - unfold edge. rewrite Z2Nat.id by lia. rewrite E. field. lra.
  - lia.
  - unfold e. Z.to_euclidean_division_equations; lia.
  - exists (Z.to_nat ((bins_in + 1) / 2)). unfold e. Z.to_euclidean_division_equations; lia.
Qed.
Lemma empty_counts : forall (p : nat -> Q -> bool) n i c, nth_error (repeat 0%Z n) i = Some c -> c = zcount (p i) [].
Proof. intros p n i c E. now apply nth_repeat0 in E. Qed.
