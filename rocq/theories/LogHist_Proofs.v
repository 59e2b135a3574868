(** Proofs about the logarithmic histogram. *)
From Coq Require Import Reals Lra.
From Coq Require Import List ZArith Bool Lia ZifyBool ZifyNat.
From Flocq Require Import Core.
From Verif Require Import Common CommonFacts Arith RealArith Stats_Model Histogram_Spec Histogram_Model Histogram_Arr.
From Verif Require Histogram_Proofs.
From Verif Require Import HistQuery_Model HistQuery_Proofs LogHist_Spec LogHist_Model.
Import ListNotations.
Local Open Scope R_scope.

(** ** any arithmetic: the merging loops *)
Section G.
Variable A : arith.
Variable log_ exp_ : A -> A.
Local Notation lhist := (lhist A).
Local Open Scope Z_scope.

Lemma l_low_once_eq : forall (h : lhist) m, length (l_bins h) = (2 * m)%nat -> l_num h = Z.of_nat (2 * m) -> (0 < m)%nat -> l_num h <= 2 ^ 31 ->
  l_low_once A exp_ h = Ok (mkLHist (l_base h) (l_num h) (ndiv (l_high h) (exp_ (ndiv (of_int (l_num h)) (ndiv (l_scaling h) (of_int 2))))) (l_high h)
     (ndiv (l_scaling h) (of_int 2)) (l_scalable h) (repeat 0 m ++ pairs (l_bins h))).
Proof.
  intros h m L N P B. unfold l_low_once.
  replace (s32 (l_num h - 1)) with (l_num h - 1) by (unfold s32, u32; rewrite Z.mod_small by lia; destruct (l_num h - 1 <? 2 ^ 31) eqn:E; lia).
  replace (s32 (l_num h - 2)) with (l_num h - 2) by (unfold s32, u32; rewrite Z.mod_small by lia; destruct (l_num h - 2 <? 2 ^ 31) eqn:E; lia).
  destruct (merge_up_spec m (l_bins h) [] [] (length (l_bins h)) L ltac:(lia)) as (y' & E & Ly).
  rewrite !app_nil_r in E. cbn [length] in E, Ly. rewrite Nat.add_0_r in E, Ly. rewrite N, E. cbn [bind].
  rewrite zero_down_spec by lia. cbn [bind]. now rewrite Ly.
Qed.
Lemma l_high_once_eq : forall (h : lhist) m, length (l_bins h) = (2 * m)%nat -> l_num h = Z.of_nat (2 * m) ->
  l_high_once A exp_ h = Ok (mkLHist (l_base h) (l_num h) (l_small h) (nmul (l_small h) (exp_ (ndiv (of_int (l_num h)) (ndiv (l_scaling h) (of_int 2)))))
     (ndiv (l_scaling h) (of_int 2)) (l_scalable h) (pairs (l_bins h) ++ repeat 0 m)).
Proof.
  intros h m L N. unfold l_high_once.
  destruct (merge_down_spec m [] [] (l_bins h) (length (l_bins h)) L ltac:(lia) eq_refl) as (y' & E & Ly).
  cbn [length app Nat.add Nat.mul] in E, Ly. replace (l_num h / 2) with (Z.of_nat m) by (rewrite N; Z.to_euclidean_division_equations; lia).
  change (Z.of_nat 0) with 0 in E. rewrite E. cbn [bind].
  pose proof (pairs_length m (l_bins h) L) as Lp. pose proof (zero_up_spec y' (pairs (l_bins h)) (length (l_bins h)) ltac:(lia)) as Z.
  replace (l_num h) with (Z.of_nat (length (pairs (l_bins h)) + length y')) at 1 by lia. rewrite <- Lp at 1. rewrite Z. cbn [bind]. now rewrite Ly.
Qed.

Definition lshape (h : lhist) : Prop := exists m, length (l_bins h) = (2 * m)%nat /\ l_num h = Z.of_nat (2 * m) /\ (0 < m)%nat /\ l_num h <= 2 ^ 31.
Definition ltotal (h : lhist) (n : Z) : Prop := lshape h /\ nonneg (l_bins h) /\ zlsum (l_bins h) = n.
Lemma l_once_total : forall low h n h', ltotal h n -> n < 2 ^ 64 -> (if low : bool then l_low_once A exp_ h else l_high_once A exp_ h) = Ok h' ->
  ltotal h' n /\ l_base h' = l_base h /\ l_num h' = l_num h.
Proof.
  intros low h n h' ((m & L & N & P & B) & NN & T) Bn E. destruct (pairs_sum m (l_bins h) L NN ltac:(lia)) as [P1 P2]. pose proof (pairs_length m (l_bins h) L) as Lp.
  destruct low; [rewrite (l_low_once_eq h m L N P B) in E | rewrite (l_high_once_eq h m L N) in E]; apply Ok_inj in E; subst h'; (split; [|split; reflexivity]);
    (split; [exists m; cbn [l_bins l_num]; rewrite app_length, repeat_length; lia|]); cbn [l_bins]; rewrite zlsum_app, zlsum_repeat0; (split; [apply Forall_app; split; [try apply nonneg_repeat0; exact P2|try apply nonneg_repeat0; exact P2]|lia]).
Qed.
Lemma l_low_loop_total : forall fuel h v n h', ltotal h n -> n < 2 ^ 64 -> l_low_loop A exp_ fuel h v = Ok h' -> ltotal h' n /\ l_base h' = l_base h /\ l_num h' = l_num h.
Proof.
  induction fuel as [|f IH]; intros h v n h' T B E; cbn [l_low_loop] in E; destruct (nlt v (l_small h)); try discriminate; try (apply Ok_inj in E; subst; auto; fail).
  destruct (l_low_once A exp_ h) as [h1| | |] eqn:E1; try discriminate. cbn [bind] in E.
  destruct (l_once_total true h n h1 T B E1) as (T1 & B1 & N1). destruct (IH h1 v n h' T1 B E) as (T2 & B2 & N2). split; [exact T2|split; congruence].
Qed.
Lemma l_high_loop_total : forall fuel h v n h', ltotal h n -> n < 2 ^ 64 -> l_high_loop A exp_ fuel h v = Ok h' -> ltotal h' n /\ l_base h' = l_base h /\ l_num h' = l_num h.
Proof.
  induction fuel as [|f IH]; intros h v n h' T B E; cbn [l_high_loop] in E; destruct (nle (l_high h) v); try discriminate; try (apply Ok_inj in E; subst; auto; fail).
  destruct (l_high_once A exp_ h) as [h1| | |] eqn:E1; try discriminate. cbn [bind] in E.
  destruct (l_once_total false h n h1 T B E1) as (T1 & B1 & N1). destruct (IH h1 v n h' T1 B E) as (T2 & B2 & N2). split; [exact T2|split; congruence].
Qed.
Lemma l_scale_total : forall fuel h v n h', ltotal h n -> n < 2 ^ 64 -> l_scale A exp_ fuel h v = Ok h' -> ltotal h' n /\ l_base h' = l_base h /\ l_num h' = l_num h.
Proof.
  intros fuel h v n h' T B E. unfold l_scale in E. destruct (_ && _); [|apply Ok_inj in E; subst; auto].
  destruct (l_low_loop A exp_ fuel h v) as [h1| | |] eqn:E1; try discriminate. cbn [bind] in E.
  destruct (l_low_loop_total _ _ _ _ _ T B E1) as (T1 & B1 & N1). destruct (l_high_loop_total _ _ _ _ _ T1 B E) as (T2 & B2 & N2). split; [exact T2|split; congruence].
Qed.
Lemma l_bump_total : forall (h : lhist) n bin c b, ltotal h n -> n + 1 < 2 ^ 64 -> zget (l_bins h) bin = Ok c -> zput (l_bins h) bin (u64 (c + 1)) = Ok b -> ltotal (l_with_bins A h b) (n + 1).
Proof.
  intros h n bin c b ((m & L & N & P & B) & NN & T) Bn Eg Ep.
  apply zget_inv in Eg as (k & -> & Eg). apply zput_inv in Ep as (k' & Ek & Lk & ->). apply Nat2Z.inj in Ek. subst k'.
  pose proof (nonneg_le _ _ _ NN Eg) as C. assert (U : u64 (c + 1) = c + 1) by (unfold u64; apply Z.mod_small; lia).
  split; [|split]; cbn [l_with_bins l_bins].
  - exists m. cbn [l_with_bins l_bins l_num]. rewrite length_upd. auto.
  - rewrite U. apply upd_nonneg; [exact NN|lia].
  - rewrite U, (upd_sum _ _ _ _ Eg). lia.
Qed.
Lemma l_add_total : forall fuel h v n h', ltotal h n -> n + 1 < 2 ^ 64 -> l_add A log_ exp_ fuel h v = Ok h' ->
  ltotal h' (n + 1) /\ l_base h' = st_add A (l_base h) v /\ l_num h' = l_num h.
Proof.
  intros fuel h v n h' T B E. unfold l_add in E. destruct (nlt _ v); [|discriminate]. cbn [invariant bind] in E.
  set (h0 := l_with_base A h (st_add A (l_base h) v)) in *. assert (T0 : ltotal h0 n) by exact T.
  destruct (l_scale A exp_ fuel h0 v) as [h1| | |] eqn:E1; try discriminate. cbn [bind] in E. destruct (l_scale_total _ _ _ _ _ T0 ltac:(lia) E1) as (T1 & B1 & N1).
  destruct (l_sampleBin A log_ h1 v) as [bin| | |]; try discriminate. cbn [bind] in E.
  destruct (zget (l_bins h1) bin) as [c| | |] eqn:Eg; try discriminate. cbn [bind] in E.
  destruct (zput (l_bins h1) bin (u64 (c + 1))) as [b| | |] eqn:Ep; try discriminate. cbn [bind] in E. apply Ok_inj in E. subst h'.
  split; [eapply l_bump_total; eassumption|]. cbn [l_with_bins l_base l_num]. split; [rewrite B1; reflexivity|exact N1].
Qed.
Lemma l_adds_total : forall fuel l h n h', ltotal h n -> n + Z.of_nat (length l) < 2 ^ 64 -> l_adds A log_ exp_ fuel h l = Ok h' ->
  ltotal h' (n + Z.of_nat (length l)) /\ l_base h' = fold_left (st_add A) l (l_base h) /\ l_num h' = l_num h.
Proof.
  induction l as [|v l IH]; intros h n h' T B E; cbn [l_adds] in E.
  - apply Ok_inj in E. subst. cbn. rewrite Z.add_0_r. auto.
  - destruct (l_add A log_ exp_ fuel h v) as [h1| | |] eqn:E1; try discriminate. cbn [bind] in E. cbn [length] in B.
    destruct (l_add_total fuel h v n h1 T ltac:(lia) E1) as (T1 & B1 & N1). destruct (IH h1 (n + 1) h' T1 ltac:(lia) E) as (T2 & B2 & N2).
    split; [|split; [cbn [fold_left]; congruence|congruence]]. replace (n + Z.of_nat (length (v :: l))) with (n + 1 + Z.of_nat (length l)) by (cbn [length]; lia). exact T2.
Qed.
Lemma l_new_eq : forall bins_in small high sc h, 0 < bins_in < 2 ^ 31 -> l_new A log_ bins_in small high sc = Ok h ->
  ltotal h 0 /\ l_base h = st_new A /\ l_num h = 2 * ((bins_in + 1) / 2) /\ l_bins h = repeat 0 (Z.to_nat (l_num h)).
Proof.
  intros bins_in small high sc h B E. unfold l_new in E. destruct (0 <? bins_in) eqn:P; cbn [invariant bind] in E; [|discriminate].
  destruct (nlt _ small); cbn [invariant bind] in E; [|discriminate]. destruct (nle small high); cbn [invariant bind] in E; [|discriminate].
  apply Ok_inj in E. subst h. assert (U : u32 (bins_in + 1) = bins_in + 1) by (unfold u32; apply Z.mod_small; lia).
  unfold l_reset, l_with_bins, l_with_base. cbn [l_base l_num l_bins]. rewrite !U, repeat_length. split; [|auto].
  split; [|split]; cbn [l_bins].
  - exists (Z.to_nat ((bins_in + 1) / 2)). cbn [l_bins l_num]. rewrite repeat_length. Z.to_euclidean_division_equations; lia.
  - apply nonneg_repeat0.
  - apply zlsum_repeat0.
Qed.
(** more fuel changes nothing *)
Lemma l_low_loop_mono : forall f g h v h', l_low_loop A exp_ f h v = Ok h' -> (f <= g)%nat -> l_low_loop A exp_ g h v = Ok h'.
Proof.
  induction f as [|f IH]; intros g h v h' E L; destruct g as [|g]; try lia; cbn [l_low_loop] in *; destruct (nlt v (l_small h)); try discriminate; auto.
  destruct (l_low_once A exp_ h); try discriminate. cbn [bind] in *. apply IH; [exact E|lia].
Qed.
Lemma l_high_loop_mono : forall f g h v h', l_high_loop A exp_ f h v = Ok h' -> (f <= g)%nat -> l_high_loop A exp_ g h v = Ok h'.
Proof.
  induction f as [|f IH]; intros g h v h' E L; destruct g as [|g]; try lia; cbn [l_high_loop] in *; destruct (nle (l_high h) v); try discriminate; auto.
  destruct (l_high_once A exp_ h); try discriminate. cbn [bind] in *. apply IH; [exact E|lia].
Qed.
Lemma l_add_mono : forall f g h v h', l_add A log_ exp_ f h v = Ok h' -> (f <= g)%nat -> l_add A log_ exp_ g h v = Ok h'.
Proof.
  intros f g h v h' E L. unfold l_add in *. destruct (nlt _ v); [|discriminate]. cbn [invariant bind] in *. set (h0 := l_with_base A h _) in *.
  destruct (l_scale A exp_ f h0 v) as [h1| | |] eqn:E1; try discriminate. replace (l_scale A exp_ g h0 v) with (Ok h1); [exact E|]. symmetry.
  unfold l_scale in *. destruct (_ && _); [|exact E1]. destruct (l_low_loop A exp_ f h0 v) as [h2| | |] eqn:E2; try discriminate. cbn [bind] in E1.
  rewrite (l_low_loop_mono f g h0 v h2 E2 L). cbn [bind]. now apply (l_high_loop_mono f).
Qed.
Lemma l_adds_mono : forall f g l h h', l_adds A log_ exp_ f h l = Ok h' -> (f <= g)%nat -> l_adds A log_ exp_ g h l = Ok h'.
Proof.
  intros f g. induction l as [|v l IH]; intros h h' E L; cbn [l_adds] in *; [exact E|].
  destruct (l_add A log_ exp_ f h v) as [h1| | |] eqn:E1; try discriminate. rewrite (l_add_mono f g _ _ _ E1 L). cbn [bind] in *. now apply IH.
Qed.
End G.

(** ** counting *)
Lemma rle_iff : forall x y, rle x y = true <-> x <= y.
Proof. intros x y. unfold rle. destruct (Rle_dec x y); split; congruence. Qed.
Lemma rle_false : forall x y, rle x y = false <-> y < x.
Proof. intros x y. unfold rle. destruct (Rle_dec x y); split; try congruence; lra. Qed.
Lemma rrange_iff : forall lo hi x, rrange lo hi x = true <-> lo <= x < hi.
Proof. intros lo hi x. unfold rrange. rewrite andb_true_iff, negb_true_iff, rle_iff, rle_false. tauto. Qed.
Lemma rcount_snoc : forall p l x, rcount p (l ++ [x]) = (rcount p l + (if p x then 1 else 0))%Z.
Proof. intros p l x. unfold rcount. rewrite filter_app, app_length. cbn. destruct (p x); cbn; lia. Qed.
Lemma rcount_ext : forall p q l, (forall x, In x l -> p x = q x) -> rcount p l = rcount q l.
Proof. intros p q l H. unfold rcount. f_equal. f_equal. apply filter_ext_in. exact H. Qed.
Lemma rcount_0 : forall p l, (forall x, In x l -> p x = false) -> rcount p l = 0%Z.
Proof. intros p l H. unfold rcount. induction l as [|a l IH]; [reflexivity|]. cbn. rewrite H by (now left). apply IH. intros x Hx. apply H. now right. Qed.
Lemma rcount_le : forall p l, (0 <= rcount p l <= Z.of_nat (length l))%Z.
Proof. intros p l. unfold rcount. assert (length (filter p l) <= length l)%nat by (induction l as [|a l IH]; cbn; [lia|destruct (p a); cbn; lia]). lia. Qed.
Lemma rcount_split : forall a b c l, a <= b -> b <= c -> (rcount (rrange a b) l + rcount (rrange b c) l = rcount (rrange a c) l)%Z.
Proof.
  intros a b c l H1 H2. unfold rcount. induction l as [|x l IH]; [reflexivity|]. cbn.
  destruct (rrange a b x) eqn:E1, (rrange b c x) eqn:E2, (rrange a c x) eqn:E3; cbn [length];
    rewrite ?rrange_iff in *; try lia; exfalso;
    repeat match goal with H : rrange _ _ _ = false |- _ => apply not_true_iff_false in H; rewrite rrange_iff in H end; lra.
Qed.
Lemma lbump : forall (p : nat -> R -> bool) b l x k, (forall i c, nth_error b i = Some c -> c = rcount (p i) l) ->
  (k < length b)%nat -> (forall i, (i < length b)%nat -> p i x = (i =? k)%nat) -> (Z.of_nat (length l) + 1 < 2 ^ 64)%Z ->
  exists c b', zget b (Z.of_nat k) = Ok c /\ zput b (Z.of_nat k) (u64 (c + 1)) = Ok b' /\ length b' = length b /\
    (forall i c, nth_error b' i = Some c -> c = rcount (p i) (l ++ [x])).
Proof.
  intros p b l x k C L P B. destruct (get_lt b k L) as (c & E & G). exists c, (upd b k (u64 (c + 1))).
  unfold zget, zput. replace (0 <=? Z.of_nat k)%Z with true by lia. rewrite Nat2Z.id, G, put_ok by exact L.
  repeat split; [apply length_upd|]. intros i d E'. rewrite rcount_snoc.
  assert (Li : (i < length b)%nat) by (apply nth_error_lt in E'; now rewrite length_upd in E'). rewrite P by exact Li.
  rewrite nth_error_upd in E'. destruct (Nat.eqb_spec k i) as [->|N].
  - replace (i <? length b)%nat with true in E' by lia. cbn in E'. injection E' as <-. rewrite Nat.eqb_refl, <- (C i c E).
    pose proof (rcount_le (p i) l) as Z. rewrite <- (C i c E) in Z. unfold u64. apply Z.mod_small. lia.
  - cbn in E'. replace (i =? k)%nat with false by lia. rewrite Z.add_0_r. now apply C.
Qed.

(** ** edges *)
Lemma ledge_0 : forall s c, ledge s c 0 = s.
Proof. intros. unfold ledge. cbn [INR]. unfold Rdiv. rewrite Rmult_0_l, exp_0. ring. Qed.
Lemma ledge_pos : forall s c i, 0 < s -> 0 < ledge s c i.
Proof. intros. unfold ledge. pose proof (exp_pos (INR i / c)). nra. Qed.
Lemma ledge_le : forall s c i x, 0 < s -> 0 < c -> 0 < x -> (ledge s c i <= x <-> INR i <= c * ln (x / s)).
Proof.
  intros s c i x S C X. assert (D : 0 < x / s) by (apply Rdiv_lt_0_compat; assumption). unfold ledge. split; intros H.
  - assert (E : INR i / c <= ln (x / s)).
    { apply Rnot_lt_le. intros G. apply exp_increasing in G. rewrite exp_ln in G by exact D. apply (Rmult_lt_compat_l s) in G; [|exact S]. replace (s * (x / s)) with x in G by (field; lra). lra. }
    apply (Rmult_le_compat_l c) in E; [|lra]. replace (c * (INR i / c)) with (INR i) in E by (field; lra). exact E.
  - assert (E : INR i / c <= ln (x / s)). { apply (Rmult_le_reg_l c); [exact C|]. replace (c * (INR i / c)) with (INR i) by (field; lra). exact H. }
    assert (G : exp (INR i / c) <= x / s). { rewrite <- (exp_ln (x / s)) by exact D. destruct E as [E|E]; [left; now apply exp_increasing|right; now rewrite E]. }
    apply (Rmult_le_compat_l s) in G; [|lra]. replace (s * (x / s)) with x in G by (field; lra). exact G.
Qed.
Lemma ledge_gt : forall s c i x, 0 < s -> 0 < c -> 0 < x -> (x < ledge s c i <-> c * ln (x / s) < INR i).
Proof. intros s c i x S C X. pose proof (ledge_le s c i x S C X). split; intros G; apply Rnot_le_lt; intros L; [apply H in L|apply H in L]; lra. Qed.
Lemma ledge_mono : forall s c i j, 0 < s -> 0 < c -> (i <= j)%nat -> ledge s c i <= ledge s c j.
Proof.
  intros s c i j S C L. apply le_INR in L. unfold ledge. apply Rmult_le_compat_l; [lra|].
  assert (E : INR i / c <= INR j / c) by (apply Rmult_le_compat_r; [left; now apply Rinv_0_lt_compat|exact L]). destruct E as [E|E]; [left; now apply exp_increasing|right; now rewrite E].
Qed.
Lemma ledge_lt : forall s c i j, 0 < s -> 0 < c -> (i < j)%nat -> ledge s c i < ledge s c j.
Proof.
  intros s c i j S C L. apply lt_INR in L. unfold ledge. apply Rmult_lt_compat_l; [lra|]. apply exp_increasing. apply Rmult_lt_compat_r; [now apply Rinv_0_lt_compat|exact L].
Qed.
Lemma ledge_lt_inv : forall s c i j, 0 < s -> 0 < c -> ledge s c i < ledge s c j -> (i < j)%nat.
Proof. intros s c i j S C H. destruct (Nat.lt_ge_cases i j) as [L|L]; [exact L|]. pose proof (ledge_mono s c j i S C L). lra. Qed.
Lemma lfloor : forall s c x, 0 < s -> 0 < c -> s <= x -> exists k, Zfloor (c * ln (x / s)) = Z.of_nat k /\ ledge s c k <= x < ledge s c (S k).
Proof.
  intros s c x S C X. assert (H : 0 <= c * ln (x / s)). { change 0 with (INR 0). apply (ledge_le s c 0 x S C ltac:(lra)). rewrite ledge_0. exact X. }
  assert (Z0 : (0 <= Zfloor (c * ln (x / s)))%Z) by (apply Zfloor_lub; exact H).
  exists (Z.to_nat (Zfloor (c * ln (x / s)))). rewrite Z2Nat.id by exact Z0. split; [reflexivity|].
  rewrite (ledge_le s c _ x S C ltac:(lra)), (ledge_gt s c _ x S C ltac:(lra)). rewrite S_INR, !INR_IZR_INZ, Z2Nat.id by exact Z0. split; [apply Zfloor_lb|apply Zfloor_ub].
Qed.
Lemma lrange_unique : forall s c x i k, 0 < s -> 0 < c -> ledge s c k <= x < ledge s c (S k) -> lbin s c i x = (i =? k)%nat.
Proof.
  intros s c x i k S C [H1 H2]. apply eq_true_iff_eq. unfold lbin. rewrite rrange_iff, Nat.eqb_eq. split.
  - intros [A B]. assert (i < Datatypes.S k)%nat by (apply (ledge_lt_inv s c); lra || assumption). assert (k < Datatypes.S i)%nat by (apply (ledge_lt_inv s c); lra || assumption). lia.
  - intros ->. split; assumption.
Qed.
Lemma ledge_half : forall s c i, 0 < c -> ledge s (c / 2) i = ledge s c (2 * i).
Proof. intros. unfold ledge. f_equal. f_equal. rewrite mult_INR. cbn [INR]. field. lra. Qed.
Lemma ledge_low : forall s c m k, 0 < c -> ledge (ledge s c (2 * m) / exp (INR (2 * m) / (c / 2))) (c / 2) (m + k) = ledge s c (2 * k).
Proof.
  intros s c m k C. pose proof (exp_pos (INR (2 * m) / (c / 2))). unfold ledge, Rdiv. rewrite <- exp_Ropp, !Rmult_assoc. f_equal. rewrite <- !exp_plus. f_equal. rewrite plus_INR, !mult_INR. cbn [INR]. field. lra.
Qed.

(** ** the exact model *)
Definition lcounts (p : nat -> R -> bool) (b : list Z) (l : list R) : Prop := forall i c, nth_error b i = Some c -> c = rcount (p i) l.
Definition HL (h : lhist reals) (s hi c : R) (l : list R) : Prop :=
  l_small h = RFin s /\ l_high h = RFin hi /\ l_scaling h = RFin c /\ 0 < s /\ 0 < c /\ hi = ledge s c (length (l_bins h)) /\
  lshape reals h /\ lcounts (lbin s c) (l_bins h) l /\ Forall (fun x => s <= x < hi) l.

Lemma rnle : forall a b, @nle reals (RFin a) (RFin b) = rle a b.
Proof. reflexivity. Qed.
Lemma rnlt : forall a b, @nlt reals (RFin a) (RFin b) = negb (rle b a).
Proof. intros a b. cbn. unfold rle. destruct (Rlt_dec a b), (Rle_dec b a); try reflexivity; lra. Qed.
Lemma rndiv : forall a b, b <> 0 -> @ndiv reals (RFin a) (RFin b) = RFin (a / b).
Proof. intros a b H. cbn. destruct (Req_EM_T b 0); [contradiction|reflexivity]. Qed.
Lemma rlog_pos : forall a, 0 < a -> rlog (RFin a) = RFin (ln a).
Proof. intros a H. cbn. destruct (Rlt_dec 0 a); [reflexivity|lra]. Qed.

(** where sampleBin puts x *)
Lemma lsample : forall (h : lhist reals) s c x, l_small h = RFin s -> l_scaling h = RFin c -> 0 < s -> 0 < c -> s <= x -> c * ln (x / s) < IZR (2 ^ 32) ->
  exists k, ledge s c k <= x < ledge s c (S k) /\ l_sampleBin reals rlog h (RFin x) = if (l_num h <=? Z.of_nat k)%Z then (if rle x s then Ok 0%Z else Ok (u32 (l_num h - 1))) else Ok (Z.of_nat k).
Proof.
  intros h s c x E1 E3 S C X B. destruct (lfloor s c x S C X) as (k & K & K1 & K2). exists k. split; [auto|].
  unfold l_sampleBin. rewrite E1, E3, rnle. destruct (rle x s) eqn:Ex.
  - rewrite rle_iff in Ex. assert (k < 1)%nat by (apply (ledge_lt_inv s c); [exact S|exact C|]; replace x with s in * by lra; pose proof (ledge_lt s c 0 1 S C ltac:(lia)); rewrite ledge_0 in *; lra).
    replace k with 0%nat by lia. cbn. now destruct (l_num h <=? 0)%Z.
  - rewrite rndiv by lra. rewrite rlog_pos by (apply Rdiv_lt_0_compat; lra). cbn [nmul reals rop floor_unsigned]. unfold floor_unsigned. cbn [nfloor reals]. rewrite K.
    assert (Hk : (Z.of_nat k < 2 ^ 32)%Z) by (rewrite <- K; apply lt_IZR; eapply Rle_lt_trans; [apply Zfloor_lb|exact B]).
    replace ((0 <=? Z.of_nat k) && (Z.of_nat k <? 2 ^ 32))%Z with true by lia. cbn [bind]. reflexivity.
Qed.

Lemma ladd_inside : forall (h : lhist reals) s hi c l x, HL h s hi c l -> s <= x < hi -> (Z.of_nat (length l) + 1 < 2 ^ 64)%Z ->
  exists b, (let! bin := l_sampleBin reals rlog h (RFin x) in let! q := zget (l_bins h) bin in let! b := zput (l_bins h) bin (u64 (q + 1)) in Ok (l_with_bins reals h b)) = Ok (l_with_bins reals h b) /\
    HL (l_with_bins reals h b) s hi c (l ++ [x]) /\ length b = length (l_bins h).
Proof.
  intros h s hi c l x (E1 & E2 & E3 & S & C & EH & Sh & Cn & F) [X1 X2] B. pose proof Sh as (m & L & N & P & NB).
  assert (Bx : c * ln (x / s) < INR (length (l_bins h))) by (apply ledge_gt; lra).
  assert (Bi : INR (length (l_bins h)) < IZR (2 ^ 32)) by (rewrite INR_IZR_INZ; apply IZR_lt; lia).
  destruct (lsample h s c x E1 E3 S C X1 ltac:(lra)) as (k & K & Ek).
  assert (KL : (k < length (l_bins h))%nat) by (apply (ledge_lt_inv s c); lra).
  replace (l_num h <=? Z.of_nat k)%Z with false in Ek by lia.
  destruct (lbump (lbin s c) (l_bins h) l x k Cn KL (fun i _ => lrange_unique s c x i k S C K) B) as (q & b & G & W & Lb & C').
  exists b. rewrite Ek. cbn [bind]. rewrite G. cbn [bind]. rewrite W. cbn [bind]. split; [reflexivity|]. split; [|exact Lb].
  unfold HL, lshape, l_with_bins. cbn [l_small l_high l_scaling l_bins l_num]. rewrite Lb. repeat (split; [assumption|]).
  apply Forall_app. split; [exact F|]. constructor; [lra|constructor].
Qed.

Lemma lpair_counts : forall s c m b l i q, 0 < s -> 0 < c -> length b = (2 * m)%nat -> lcounts (lbin s c) b l -> (Z.of_nat (length l) < 2 ^ 64)%Z ->
  nth_error (pairs b) i = Some q -> q = rcount (rrange (ledge s c (2 * i)) (ledge s c (2 * S i))) l.
Proof.
  intros s c m b l i r S C L Cn B E. destruct (Histogram_Proofs.nth_pairs m b i r L E) as (p & q & P & Q & ->). apply Cn in P. apply Cn in Q. unfold lbin in P, Q.
  replace (2 * Datatypes.S i)%nat with (Datatypes.S (2 * i + 1)) by lia.
  assert (M1 : ledge s c (2 * i) <= ledge s c (2 * i + 1)) by (apply ledge_mono; lia || assumption).
  assert (M2 : ledge s c (2 * i + 1) <= ledge s c (Datatypes.S (2 * i + 1))) by (apply ledge_mono; lia || assumption).
  rewrite <- (rcount_split _ _ _ l M1 M2). replace (Datatypes.S (2 * i)) with (2 * i + 1)%nat in P by lia. rewrite <- P, <- Q.
  assert (p + q <= Z.of_nat (length l))%Z by (rewrite P, Q, (rcount_split _ _ _ l M1 M2); apply rcount_le).
  assert (0 <= p)%Z by (rewrite P; apply rcount_le). assert (0 <= q)%Z by (rewrite Q; apply rcount_le). unfold u64. apply Z.mod_small. lia.
Qed.
Definition lkeeps (h h' : lhist reals) : Prop := length (l_bins h') = length (l_bins h) /\ l_num h' = l_num h /\ l_base h' = l_base h /\ l_scalable h' = l_scalable h.
Lemma lkeeps_refl : forall h, lkeeps h h.
Proof. intros h. repeat split. Qed.
Lemma lkeeps_trans : forall a b c, lkeeps a b -> lkeeps b c -> lkeeps a c.
Proof. intros a b c (A1 & A2 & A3 & A4) (B1 & B2 & B3 & B4). repeat split; congruence. Qed.

Lemma lhigh_once : forall (h : lhist reals) s hi c l, HL h s hi c l -> (Z.of_nat (length l) < 2 ^ 64)%Z ->
  exists h' hi', l_high_once reals rexp h = Ok h' /\ HL h' s hi' (c / 2) l /\ lkeeps h h'.
Proof.
  intros h s hi c l (E1 & E2 & E3 & S & C & EH & Sh & Cn & F) B. pose proof Sh as (m & L & N & P & NB).
  rewrite (l_high_once_eq reals rexp h m L N). rewrite E1, E3, N. change (@of_int reals 2) with (RFin 2). rewrite rndiv by lra. change (@of_int reals (Z.of_nat (2 * m))) with (RFin (IZR (Z.of_nat (2 * m)))). rewrite rndiv by lra. rewrite <- INR_IZR_INZ. cbn [rexp nmul reals rop].
  pose proof (pairs_length m (l_bins h) L) as Lp.
  assert (LL : length (pairs (l_bins h) ++ repeat 0%Z m) = length (l_bins h)) by (rewrite app_length, repeat_length; lia).
  eexists. exists (ledge s (c / 2) (length (l_bins h))). split; [reflexivity|]. split; [|repeat split; [exact LL|cbn; lia]].
  unfold HL, lshape. cbn [l_small l_high l_scaling l_bins l_num]. rewrite LL. split; [reflexivity|]. split; [rewrite L; reflexivity|]. split; [reflexivity|]. split; [exact S|]. split; [lra|]. split; [reflexivity|].
  split; [exists m; rewrite <- N; auto|]. split.
  - intros i q Ec. destruct (Nat.lt_ge_cases i m) as [Li|Li].
    + rewrite nth_error_app1 in Ec by lia. rewrite (lpair_counts s c m (l_bins h) l i q S C L Cn B Ec). unfold lbin. rewrite !ledge_half by exact C. reflexivity.
    + rewrite nth_error_app2 in Ec by lia. apply Histogram_Proofs.nth_repeat0 in Ec. subst q. symmetry. apply rcount_0. intros x Hx.
      rewrite Forall_forall in F. specialize (F x Hx). apply not_true_iff_false. unfold lbin. rewrite rrange_iff. intros [A _].
      rewrite ledge_half in A by exact C. pose proof (ledge_mono s c (length (l_bins h)) (2 * i) S C ltac:(lia)). lra.
  - eapply Forall_impl; [|exact F]. cbn. intros x Hx. rewrite ledge_half by exact C. pose proof (ledge_mono s c (length (l_bins h)) (2 * length (l_bins h)) S C ltac:(lia)). lra.
Qed.
Lemma llow_once : forall (h : lhist reals) s hi c l, HL h s hi c l -> (Z.of_nat (length l) < 2 ^ 64)%Z ->
  exists h' s', l_low_once reals rexp h = Ok h' /\ HL h' s' hi (c / 2) l /\ lkeeps h h'.
Proof.
  intros h s hi c l (E1 & E2 & E3 & S & C & EH & Sh & Cn & F) B. pose proof Sh as (m & L & N & P & NB).
  rewrite (l_low_once_eq reals rexp h m L N P NB). rewrite E2, E3, N. change (@of_int reals 2) with (RFin 2). rewrite rndiv by lra. change (@of_int reals (Z.of_nat (2 * m))) with (RFin (IZR (Z.of_nat (2 * m)))). rewrite rndiv by lra. rewrite <- INR_IZR_INZ. cbn [rexp].
  pose proof (exp_pos (INR (2 * m) / (c / 2))) as EP. rewrite rndiv by lra.
  pose proof (pairs_length m (l_bins h) L) as Lp.
  assert (LL : length (repeat 0%Z m ++ pairs (l_bins h)) = length (l_bins h)) by (rewrite app_length, repeat_length; lia).
  eexists. exists (hi / exp (INR (2 * m) / (c / 2))). split; [reflexivity|]. split; [|repeat split; [exact LL|cbn; lia]].
  rewrite L in EH. pose proof (fun k => ledge_low s c m k C) as ED. rewrite <- EH in ED. set (s' := hi / exp (INR (2 * m) / (c / 2))) in *.
  assert (S' : 0 < s') by (unfold s'; apply Rdiv_lt_0_compat; [rewrite EH; now apply ledge_pos|exact EP]).
  assert (SS : s' <= s). { pose proof (ED 0%nat) as E0. change (2 * 0)%nat with 0%nat in E0. rewrite ledge_0 in E0. rewrite <- E0. rewrite <- (ledge_0 s' (c / 2)) at 1. apply ledge_mono; lra || lia. }
  unfold HL, lshape. cbn [l_small l_high l_scaling l_bins l_num]. rewrite LL. split; [reflexivity|]. split; [reflexivity|]. split; [reflexivity|]. split; [exact S'|]. split; [lra|].
  split; [rewrite L; replace (2 * m)%nat with (m + m)%nat by lia; rewrite ED; exact EH|].
  split; [exists m; rewrite <- N; auto|]. split.
  - intros i q Ec. destruct (Nat.lt_ge_cases i m) as [Li|Li].
    + rewrite nth_error_app1 in Ec by (rewrite repeat_length; lia). apply Histogram_Proofs.nth_repeat0 in Ec. subst q. symmetry. apply rcount_0. intros x Hx.
      rewrite Forall_forall in F. specialize (F x Hx). apply not_true_iff_false. unfold lbin. rewrite rrange_iff. intros [_ A].
      pose proof (ledge_mono s' (c / 2) (Datatypes.S i) (m + 0) S' ltac:(lra) ltac:(lia)) as G. rewrite ED in G. change (2 * 0)%nat with 0%nat in G. rewrite ledge_0 in G. lra.
    + rewrite nth_error_app2 in Ec by (rewrite repeat_length; lia). rewrite repeat_length in Ec.
      rewrite (lpair_counts s c m (l_bins h) l (i - m) q S C L Cn B Ec). unfold lbin. rewrite <- !ED.
      replace (m + (i - m))%nat with i by lia. replace (m + Datatypes.S (i - m))%nat with (Datatypes.S i) by lia. reflexivity.
  - eapply Forall_impl; [|exact F]. cbn. intros x Hx. lra.
Qed.

(** the loops end: the range's logarithm doubles *)
Lemma exists_pow2 : forall q d, 0 < d -> exists n, q < 2 ^ n * d.
Proof.
  intros q d D. destruct (Pow_x_infinity 2 ltac:(rewrite Rabs_right; lra) (q / d + 1)) as (n & H). exists n. specialize (H n (le_n n)). rewrite Rabs_right in H by (left; apply pow_lt; lra).
  assert (q / d < 2 ^ n) by lra. apply (Rmult_lt_compat_r d) in H0; [|exact D]. replace (q / d * d) with q in H0 by (field; lra). exact H0.
Qed.
Lemma ledge_ln : forall s c n, 0 < s -> 0 < c -> ln (ledge s c n / s) = INR n / c.
Proof. intros s c n S C. unfold ledge. replace (s * exp (INR n / c) / s) with (exp (INR n / c)) by (field; lra). apply ln_exp. Qed.
Lemma lhigh_loop_ok : forall n (h : lhist reals) s hi c l x fuel, HL h s hi c l -> (Z.of_nat (length l) < 2 ^ 64)%Z -> 0 < x ->
  c * ln (x / s) < 2 ^ n * INR (length (l_bins h)) -> (n <= fuel)%nat ->
  exists h' hi' c', l_high_loop reals rexp fuel h (RFin x) = Ok h' /\ HL h' s hi' c' l /\ x < hi' /\ lkeeps h h'.
Proof.
  induction n as [|n IH]; intros h s hi c l x fuel R B X H LF; pose proof R as (E1 & E2 & E3 & S & C & EH & _).
  - cbn [pow] in H. assert (x < hi) by (rewrite EH; apply ledge_gt; lra). exists h, hi, c. split; [|split; [exact R|split; [lra|apply lkeeps_refl]]].
    destruct fuel; cbn [l_high_loop]; rewrite E2, rnle, (proj2 (rle_false hi x)) by lra; reflexivity.
  - destruct (Rlt_dec x hi) as [G|G].
    + exists h, hi, c. split; [|split; [exact R|split; [lra|apply lkeeps_refl]]].
      destruct fuel; cbn [l_high_loop]; rewrite E2, rnle, (proj2 (rle_false hi x)) by lra; reflexivity.
    + destruct fuel as [|fuel]; [lia|]. destruct (lhigh_once h s hi c l R B) as (h1 & hi1 & O1 & R1 & K).
      destruct (IH h1 s hi1 (c / 2) l x fuel R1 B X) as (h' & hi' & c' & O2 & R2 & X2 & K2).
      * destruct K as (-> & _). cbn [pow] in H. lra.
      * lia.
      * exists h', hi', c'. split; [|split; [exact R2|split; [exact X2|exact (lkeeps_trans _ _ _ K K2)]]].
        cbn [l_high_loop]. rewrite E2, rnle, (proj2 (rle_iff hi x)) by lra. rewrite O1. exact O2.
Qed.
Lemma llow_loop_ok : forall n (h : lhist reals) s hi c l x fuel, HL h s hi c l -> (Z.of_nat (length l) < 2 ^ 64)%Z -> 0 < x ->
  c * ln (hi / x) <= 2 ^ n * INR (length (l_bins h)) -> (n <= fuel)%nat ->
  exists h' s' c', l_low_loop reals rexp fuel h (RFin x) = Ok h' /\ HL h' s' hi c' l /\ s' <= x /\ lkeeps h h'.
Proof.
  induction n as [|n IH]; intros h s hi c l x fuel R B X H LF; pose proof R as (E1 & E2 & E3 & S & C & EH & _).
  - cbn [pow] in H. assert (s <= x).
    { assert (Hh : 0 < hi) by (rewrite EH; now apply ledge_pos). assert (G : ln (hi / x) <= ln (hi / s)) by (rewrite EH at 2; rewrite ledge_ln by assumption; apply (Rmult_le_reg_l c); [exact C|]; replace (c * (INR (length (l_bins h)) / c)) with (INR (length (l_bins h))) by (field; lra); lra).
      apply Rnot_lt_le. intros Q. assert (ln (hi / s) < ln (hi / x)); [|lra]. apply ln_increasing; [apply Rdiv_lt_0_compat; assumption|]. apply Rmult_lt_compat_l; [exact Hh|]. apply Rinv_lt_contravar; [apply Rmult_lt_0_compat; assumption|exact Q]. }
    exists h, s, c. split; [|split; [exact R|split; [lra|apply lkeeps_refl]]].
    destruct fuel; cbn [l_low_loop]; rewrite E1, rnlt, (proj2 (rle_iff s x)) by lra; reflexivity.
  - destruct (Rle_dec s x) as [G|G].
    + exists h, s, c. split; [|split; [exact R|split; [lra|apply lkeeps_refl]]].
      destruct fuel; cbn [l_low_loop]; rewrite E1, rnlt, (proj2 (rle_iff s x)) by lra; reflexivity.
    + destruct fuel as [|fuel]; [lia|]. destruct (llow_once h s hi c l R B) as (h1 & s1 & O1 & R1 & K).
      destruct (IH h1 s1 hi (c / 2) l x fuel R1 B X) as (h' & s' & c' & O2 & R2 & X2 & K2).
      * destruct K as (-> & _). cbn [pow] in H. lra.
      * lia.
      * exists h', s', c'. split; [|split; [exact R2|split; [exact X2|exact (lkeeps_trans _ _ _ K K2)]]].
        cbn [l_low_loop]. rewrite E1, rnlt, (proj2 (rle_false s x)) by lra. cbn [negb]. rewrite O1. exact O2.
Qed.
Lemma lscale_ok : forall (h : lhist reals) s hi c l x, HL h s hi c l -> l_scalable h = true -> (Z.of_nat (length l) < 2 ^ 64)%Z -> 0 < x ->
  exists N h' s' hi' c', l_scale reals rexp N h (RFin x) = Ok h' /\ HL h' s' hi' c' l /\ s' <= x < hi' /\ lkeeps h h'.
Proof.
  intros h s hi c l x R SC B X. pose proof R as (E1 & E2 & E3 & S & C & EH & (m & L & N & P & NB) & _). unfold l_scale. rewrite SC, E1, E2, rnlt, rnle. cbn [andb].
  assert (D : 0 < INR (length (l_bins h))) by (rewrite L; apply lt_0_INR; lia).
  destruct (negb (rle s x) || rle hi x) eqn:Q.
  - destruct (exists_pow2 (c * ln (hi / x)) _ D) as (n1 & H1). destruct (llow_loop_ok n1 h s hi c l x n1 R B X ltac:(lra) ltac:(lia)) as (h1 & s1 & c1 & O1 & R1 & X1 & K1).
    destruct (exists_pow2 (c1 * ln (x / s1)) (INR (length (l_bins h1)))) as (n2 & H2); [destruct K1 as (-> & _); exact D|].
    destruct (lhigh_loop_ok n2 h1 s1 hi c1 l x n2 R1 B X H2 ltac:(lia)) as (h2 & hi2 & c2 & O2 & R2 & X2 & K2).
    exists (Nat.max n1 n2), h2, s1, hi2, c2. rewrite (l_low_loop_mono reals rlog rexp n1 (Nat.max n1 n2) h _ _ O1) by lia. cbn [bind]. rewrite (l_high_loop_mono reals rlog rexp n2 (Nat.max n1 n2) h1 _ _ O2) by lia.
    split; [reflexivity|]. split; [exact R2|]. split; [lra|exact (lkeeps_trans _ _ _ K1 K2)].
  - apply orb_false_iff in Q as [Q1 Q2]. apply negb_false_iff, rle_iff in Q1. apply rle_false in Q2. exists 0%nat, h, s, hi, c. split; [reflexivity|]. split; [exact R|]. split; [lra|apply lkeeps_refl].
Qed.
Lemma HL_base : forall h s hi c l b, HL h s hi c l -> HL (l_with_base reals h b) s hi c l.
Proof. intros h s hi c l b H. exact H. Qed.
Lemma lscal_add : forall (h : lhist reals) s hi c l x, HL h s hi c l -> l_scalable h = true -> (Z.of_nat (length l) + 1 < 2 ^ 64)%Z -> 0 < x ->
  exists N h' s' hi' c', l_add reals rlog rexp N h (RFin x) = Ok h' /\ HL h' s' hi' c' (l ++ [x]) /\ l_scalable h' = true /\ length (l_bins h') = length (l_bins h).
Proof.
  intros h s hi c l x R SC B X.
  destruct (lscale_ok (l_with_base reals h (st_add reals (l_base h) (RFin x))) s hi c l x (HL_base _ _ _ _ _ _ R) SC ltac:(lia) X) as (N & h1 & s1 & hi1 & c1 & O1 & R1 & X1 & K1).
  destruct (ladd_inside h1 s1 hi1 c1 l x R1 X1 B) as (b & O2 & R2 & Lb). exists N, (l_with_bins reals h1 b), s1, hi1, c1.
  unfold l_add. change (@of_int reals 0) with (RFin 0). rewrite rnlt, (proj2 (rle_false x 0)) by lra. cbn [negb invariant bind]. rewrite O1. cbn [bind].
  split; [exact O2|]. split; [exact R2|]. destruct K1 as (K1 & _ & _ & K2). cbn [l_with_bins l_scalable l_bins]. split; [rewrite K2; exact SC|rewrite Lb, K1; reflexivity].
Qed.
Lemma lscal_adds : forall xs (h : lhist reals) s hi c l, HL h s hi c l -> l_scalable h = true -> (Z.of_nat (length l) + Z.of_nat (length xs) < 2 ^ 64)%Z -> Forall (fun x => 0 < x) xs ->
  exists N h' s' hi' c', l_adds reals rlog rexp N h (map RFin xs) = Ok h' /\ HL h' s' hi' c' (l ++ xs) /\ length (l_bins h') = length (l_bins h).
Proof.
  induction xs as [|x xs IH]; intros h s hi c l R SC B F.
  - exists 0%nat, h, s, hi, c. cbn [map l_adds]. rewrite app_nil_r. auto.
  - inversion_clear F as [|? ? X F']. cbn [length] in B. destruct (lscal_add h s hi c l x R SC ltac:(lia) X) as (N1 & h1 & s1 & hi1 & c1 & O1 & R1 & SC1 & L1).
    destruct (IH h1 s1 hi1 c1 (l ++ [x]) R1 SC1 ltac:(rewrite app_length; cbn [length]; lia) F') as (N2 & h2 & s2 & hi2 & c2 & O2 & R2 & L2).
    exists (Nat.max N1 N2), h2, s2, hi2, c2. cbn [map l_adds]. rewrite (l_add_mono reals rlog rexp N1 (Nat.max N1 N2) h _ _ O1) by lia. cbn [bind].
    rewrite (l_adds_mono reals rlog rexp N2 (Nat.max N1 N2) _ h1 _ O2) by lia. rewrite <- app_assoc in R2. split; [reflexivity|]. split; [exact R2|congruence].
Qed.

(** the constructor *)
Lemma lnew_ok : forall bins_in small high sc, (0 < bins_in < 2 ^ 31)%Z -> 0 < small < high ->
  exists h c, l_new reals rlog bins_in (RFin small) (RFin high) sc = Ok h /\ HL h small high c [] /\ l_scalable h = sc /\
    Z.of_nat (length (l_bins h)) = (2 * ((bins_in + 1) / 2))%Z /\ l_num h = Z.of_nat (length (l_bins h)).
Proof.
  intros bins_in small high sc B S. assert (E : exists h, l_new reals rlog bins_in (RFin small) (RFin high) sc = Ok h /\ l_small h = RFin small /\ l_high h = RFin high /\ l_scalable h = sc /\ l_scaling h = RFin (IZR (l_num h) / ln (high / small))).
  { unfold l_new. replace (0 <? bins_in)%Z with true by lia. cbn [invariant bind]. change (@of_int reals 0) with (RFin 0). rewrite rnlt, (proj2 (rle_false small 0)) by lra. cbn [negb invariant bind]. rewrite rnle, (proj2 (rle_iff small high)) by lra. cbn [invariant bind].
    rewrite rndiv by lra. assert (D : 1 < high / small) by (apply (Rmult_lt_reg_r small); [lra|]; replace (high / small * small) with high by (field; lra); lra). rewrite rlog_pos by lra.
    assert (0 < ln (high / small)) by (rewrite <- ln_1; apply ln_increasing; lra). change (@of_int reals (2 * (u32 (bins_in + 1) / 2))) with (RFin (IZR (2 * (u32 (bins_in + 1) / 2)))). rewrite rndiv by lra.
    eexists. split; [reflexivity|]. auto. }
  destruct E as (h & E & E1 & E2 & E4 & E3). destruct (l_new_eq reals rlog rexp bins_in _ _ sc h B E) as ((Sh & _) & _ & N & Eb). pose proof Sh as (m & L & N' & P & NB).
  exists h, (IZR (l_num h) / ln (high / small)). split; [exact E|]. split; [|split; [exact E4|split; lia]].
  assert (D : 1 < high / small) by (apply (Rmult_lt_reg_r small); [lra|]; replace (high / small * small) with high by (field; lra); lra). assert (Ln : 0 < ln (high / small)) by (rewrite <- ln_1; apply ln_increasing; lra).
  assert (Hn : 0 < IZR (l_num h)) by (apply IZR_lt; lia).
  repeat (split; [assumption|]). split; [lra|]. split; [now apply Rdiv_lt_0_compat|]. split; [|split; [exact Sh|split; [|constructor]]].
  - unfold ledge. rewrite INR_IZR_INZ. replace (Z.of_nat (length (l_bins h))) with (l_num h) by lia. replace (IZR (l_num h) / (IZR (l_num h) / ln (high / small))) with (ln (high / small)) by (field; lra). rewrite exp_ln by lra. field. lra.
  - intros i q Ec. rewrite Eb in Ec. apply Histogram_Proofs.nth_repeat0 in Ec. subst q. reflexivity.
Qed.

(** ** fixed range *)
Definition HC (h : lhist reals) (s hi c : R) (l : list R) : Prop :=
  l_small h = RFin s /\ l_high h = RFin hi /\ l_scaling h = RFin c /\ 0 < s /\ 0 < c /\ hi = ledge s c (length (l_bins h)) /\
  lshape reals h /\ l_scalable h = false /\ lcounts (lbin_clamped s c (length (l_bins h))) (l_bins h) l.
Definition fits (s c x : R) : Prop := x <= s \/ c * ln (x / s) < IZR (2 ^ 32).
Lemma lclamped_at : forall s c n x, 0 < s -> 0 < c -> (1 < n)%nat ->
  forall k, ((x <= s /\ k = 0%nat) \/ exists j, ledge s c j <= x < ledge s c (S j) /\ k = Nat.min j (n - 1)) -> forall i, (i < n)%nat -> lbin_clamped s c n i x = (i =? k)%nat.
Proof.
  intros s c n x S C Hn k H i Hi. apply eq_true_iff_eq. unfold lbin_clamped. rewrite andb_true_iff, !orb_true_iff, negb_true_iff, rle_iff, rle_false, !Nat.eqb_eq.
  destruct H as [[H ->]|(j & [H1 H2] & ->)].
  - pose proof (ledge_lt s c 0 1 S C ltac:(lia)) as E1. split.
    + intros ([->|A] & _); [reflexivity|]. pose proof (ledge_0 s c). destruct i as [|i]; [reflexivity|]. pose proof (ledge_lt s c 0 (Datatypes.S i) S C ltac:(lia)). lra.
    + intros ->. split; [now left|]. right. rewrite ledge_0 in E1. lra.
  - split.
    + intros (A & B). assert (i <= j)%nat. { destruct A as [->|A]; [lia|]. assert (i < Datatypes.S j)%nat by (apply (ledge_lt_inv s c); lra). lia. }
      destruct B as [B|B]; [lia|]. assert (j < Datatypes.S i)%nat by (apply (ledge_lt_inv s c); lra). lia.
    + intros ->. split.
      * right. pose proof (ledge_mono s c (Nat.min j (n - 1)) j S C ltac:(lia)). lra.
      * destruct (Nat.le_gt_cases (n - 1) j); [left; lia|]. right. replace (Nat.min j (n - 1)) with j by lia. exact H2.
Qed.
Lemma lsample_clamped : forall (h : lhist reals) s c x, l_small h = RFin s -> l_scaling h = RFin c -> 0 < s -> 0 < c -> lshape reals h -> fits s c x ->
  exists k, (k < length (l_bins h))%nat /\ l_sampleBin reals rlog h (RFin x) = Ok (Z.of_nat k) /\ forall i, (i < length (l_bins h))%nat -> lbin_clamped s c (length (l_bins h)) i x = (i =? k)%nat.
Proof.
  intros h s c x E1 E3 S C (m & L & N & P & NB) Ft. destruct (Rle_dec x s) as [X|X].
  - exists 0%nat. split; [lia|]. split; [|apply (lclamped_at s c (length (l_bins h)) x S C ltac:(lia)); left; auto]. unfold l_sampleBin. rewrite E1, rnle, (proj2 (rle_iff x s)) by exact X. reflexivity.
  - destruct Ft as [Ft|Ft]; [lra|]. destruct (lsample h s c x E1 E3 S C ltac:(lra) Ft) as (j & K & Ek). exists (Nat.min j (length (l_bins h) - 1)). split; [lia|]. split; [|apply (lclamped_at s c (length (l_bins h)) x S C ltac:(lia)); right; exists j; auto].
    rewrite Ek, (proj2 (rle_false x s)) by lra. destruct (l_num h <=? Z.of_nat j)%Z eqn:Q; [|f_equal; lia]. f_equal. unfold u32. rewrite Z.mod_small; lia.
Qed.
Lemma lfixed_add : forall (h : lhist reals) s hi c l x fuel, HC h s hi c l -> (Z.of_nat (length l) + 1 < 2 ^ 64)%Z -> 0 < x -> fits s c x ->
  exists h', l_add reals rlog rexp fuel h (RFin x) = Ok h' /\ HC h' s hi c (l ++ [x]) /\ length (l_bins h') = length (l_bins h).
Proof.
  intros h s hi c l x fuel (E1 & E2 & E3 & S & C & EH & Sh & SC & Cn) B X Ft.
  destruct (lsample_clamped h s c x E1 E3 S C Sh Ft) as (k & KL & Ek & U). destruct (lbump _ (l_bins h) l x k Cn KL U B) as (q & b & G & W & Lb & C').
  exists (l_with_bins reals (l_with_base reals h (st_add reals (l_base h) (RFin x))) b). unfold l_add, l_scale. change (@of_int reals 0) with (RFin 0). rewrite rnlt, (proj2 (rle_false x 0)) by lra. cbn [negb invariant bind l_with_base l_scalable]. rewrite SC. cbn [andb bind].
  match goal with |- context[l_sampleBin reals rlog ?h' (RFin x)] => replace (l_sampleBin reals rlog h' (RFin x)) with (l_sampleBin reals rlog h (RFin x)) by reflexivity end.
  rewrite Ek. cbn [bind l_bins l_with_base]. rewrite G. cbn [bind]. rewrite W. cbn [bind]. split; [reflexivity|]. split; [|exact Lb].
  unfold HC, lshape, l_with_bins, l_with_base. cbn [l_small l_high l_scaling l_bins l_num l_scalable]. rewrite Lb. repeat (split; [assumption|]). exact C'.
Qed.
Lemma lfixed_adds : forall xs (h : lhist reals) s hi c l fuel, HC h s hi c l -> (Z.of_nat (length l) + Z.of_nat (length xs) < 2 ^ 64)%Z -> Forall (fun x => 0 < x /\ fits s c x) xs ->
  exists h', l_adds reals rlog rexp fuel h (map RFin xs) = Ok h' /\ HC h' s hi c (l ++ xs) /\ length (l_bins h') = length (l_bins h).
Proof.
  induction xs as [|x xs IH]; intros h s hi c l fuel R B F.
  - exists h. cbn [map l_adds]. rewrite app_nil_r. auto.
  - inversion_clear F as [|? ? X F']. cbn [length] in B. destruct (lfixed_add h s hi c l x fuel R ltac:(lia) (proj1 X) (proj2 X)) as (h1 & O1 & R1 & L1).
    destruct (IH h1 s hi c (l ++ [x]) fuel R1 ltac:(rewrite app_length; cbn [length]; lia) F') as (h2 & O2 & R2 & L2).
    exists h2. cbn [map l_adds]. rewrite O1. cbn [bind]. rewrite <- app_assoc in R2. split; [exact O2|]. split; [exact R2|congruence].
Qed.
Lemma HL_HC_new : forall h s hi c, HL h s hi c [] -> l_scalable h = false -> HC h s hi c [].
Proof. intros h s hi c (E1 & E2 & E3 & S & C & EH & Sh & Cn & _) SC. repeat (split; [assumption|]). intros i q E. apply Cn in E. exact E. Qed.
