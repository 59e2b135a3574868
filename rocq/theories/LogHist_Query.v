(** Proofs: mode, percentile and the accumulating variant of the logarithmic histogram. *)
From Coq Require Import Reals Lra.
From Coq Require Import List ZArith Bool Lia ZifyBool ZifyNat.
From Flocq Require Import Core.
From Verif Require Import Common CommonFacts Arith RealArith Stats_Model Histogram_Spec Histogram_Model Histogram_Arr.
From Verif Require Histogram_Proofs.
From Verif Require Import HistQuery_Model HistQuery_Proofs LogHist_Spec LogHist_Model LogHist_Proofs.
Import ListNotations.
Local Open Scope R_scope.

(** ** percentile's loop, in any arithmetic *)
Section G.
Variable A : arith.
Variable exp_ : A -> A.
Local Open Scope Z_scope.
Lemma l_loop_safe : forall (t : A) b, nonneg b -> zlsum b < 2 ^ 64 -> nle t (of_int (zlsum b)) = true -> forall m k x fuel,
  (k + m = length b)%nat -> nth_error b k = Some x -> (m <= fuel)%nat -> (k <> 0%nat -> nle t (of_int (prefix b k)) = false) ->
  exists j y, l_percentile_loop A fuel t b (Z.of_nat k) (prefix b k) (prefix b (S k)) = Ok (Z.of_nat j, prefix b j, prefix b (S j)) /\
    nth_error b j = Some y /\ (j <> 0%nat -> nle t (of_int (prefix b j)) = false) /\ nle t (of_int (prefix b (S j))) = true.
Proof.
  intros t b N B T. induction m as [|m IH]; intros k x fuel K E F G.
  - exfalso. assert (k < length b)%nat by (apply nth_error_Some; congruence). lia.
  - destruct fuel as [|fuel]; [lia|]. cbn [l_percentile_loop].
    destruct (nle t (of_int (prefix b (S k)))) eqn:D; [exists k, x; auto|].
    destruct (nth_error b (S k)) as [y|] eqn:Ey.
    + replace (Z.of_nat k + 1) with (Z.of_nat (S k)) by lia. rewrite (zget_nth _ _ _ Ey). cbn [bind].
      replace (u64 (prefix b (S k) + y)) with (prefix b (S (S k))); [|rewrite (prefix_S _ _ _ Ey); symmetry; unfold u64; apply Z.mod_small; rewrite <- (prefix_S _ _ _ Ey); pose proof (prefix_nonneg b (S (S k)) N); lia].
      apply (IH (S k) y fuel); [lia|exact Ey|lia|auto].
    + exfalso. apply nth_error_None in Ey. assert (Hl : S k = length b) by lia. rewrite Hl, prefix_all in D. congruence.
Qed.
Lemma l_percentile_safe : forall (h : lhist A) (p : A), (0 < length (l_bins h))%nat -> nonneg (l_bins h) -> zlsum (l_bins h) < 2 ^ 64 ->
  nle (of_int 0) p && nle p (of_int 1) = true -> nle (nmul p (of_int (st_count A (l_base h)))) (of_int (zlsum (l_bins h))) = true ->
  exists k c, let t := nmul p (of_int (st_count A (l_base h))) in nth_error (l_bins h) k = Some c /\
    (k <> 0%nat -> nle t (of_int (prefix (l_bins h) k)) = false) /\ nle t (of_int (prefix (l_bins h) (S k))) = true /\
    l_percentile A exp_ h p = Ok (if c =? 0 then of_int 0 else binOffset A exp_ h (nadd (of_int (Z.of_nat k)) (ndiv (nsub t (of_int (prefix (l_bins h) k))) (of_int c)))) /\ (c = 0 -> k = 0%nat).
Proof.
  intros h p L N B I T. unfold l_percentile. rewrite I. cbn [invariant bind]. set (t := nmul p (of_int (st_count A (l_base h)))) in *. cbv zeta.
  destruct (nth_error (l_bins h) 0) as [x0|] eqn:E0; [|apply nth_error_None in E0; lia]. change 0%Z with (Z.of_nat 0) at 1. rewrite (zget_nth _ _ _ E0). cbn [bind].
  destruct (l_loop_safe t (l_bins h) N B T (length (l_bins h)) 0%nat x0 (length (l_bins h)) ltac:(lia) E0 ltac:(lia) ltac:(congruence)) as (k & c & E & Ek & G1 & G2).
  change (prefix (l_bins h) 0) with 0 in E. assert (E1 : prefix (l_bins h) 1 = x0) by (rewrite (prefix_S _ _ _ E0); unfold prefix; cbn; lia). rewrite E1 in E. change (Z.of_nat 0) with 0 in E. rewrite E. cbn [bind].
  exists k, c. split; [exact Ek|]. split; [exact G1|]. split; [exact G2|]. pose proof (prefix_S _ _ _ Ek) as Ep.
  destruct (prefix (l_bins h) (S k) =? prefix (l_bins h) k) eqn:Q.
  - apply Z.eqb_eq in Q. destruct k as [|k]; [|specialize (G1 ltac:(lia)); rewrite Q in G2; congruence]. replace c with 0 by lia. cbn. auto.
  - replace (c =? 0) with false by lia. replace (prefix (l_bins h) (S k) - prefix (l_bins h) k) with c by lia. split; [reflexivity|lia].
Qed.
End G.

(** ** what a histogram that was fed satisfies *)
Definition rbelow (b x : R) : bool := negb (rle b x).
Definition LF (h : lhist reals) (s c : R) (l : list R) : Prop :=
  l_small h = RFin s /\ l_scaling h = RFin c /\ 0 < s /\ 0 < c /\ lshape reals h /\ nonneg (l_bins h) /\ zlsum (l_bins h) = Z.of_nat (length l) /\
  number (l_base h) = Z.of_nat (length l) /\ forall k, (0 < k < length (l_bins h))%nat -> prefix (l_bins h) k = rcount (rbelow (ledge s c k)) l.

Lemma rcount_below_split : forall a b l, a <= b -> (rcount (rbelow a) l + rcount (rrange a b) l = rcount (rbelow b) l)%Z.
Proof.
  intros a b l H. unfold rcount. induction l as [|x l IH]; [reflexivity|]. cbn [filter].
  destruct (rbelow a x) eqn:E1, (rrange a b x) eqn:E2, (rbelow b x) eqn:E3; cbn [length]; try lia; exfalso; unfold rbelow, rrange, rle in *;
    destruct (Rle_dec a x), (Rle_dec b x); cbn in *; try discriminate; lra.
Qed.
Lemma lprefix_intervals : forall b s c l, 0 < s -> 0 < c -> lcounts (lbin s c) b l -> Forall (fun x => s <= x) l -> forall k, (k <= length b)%nat -> prefix b k = rcount (rbelow (ledge s c k)) l.
Proof.
  intros b s c l S C H F. induction k as [|k IH]; intros L.
  - unfold prefix. cbn [firstn]. symmetry. apply rcount_0. intros x Hx. rewrite Forall_forall in F. specialize (F x Hx). unfold rbelow. apply negb_false_iff, rle_iff. rewrite ledge_0. exact F.
  - destruct (nth_error b k) as [q|] eqn:E; [|apply nth_error_None in E; lia]. rewrite (prefix_S _ _ _ E), IH by lia. rewrite (H _ _ E). apply rcount_below_split. apply ledge_mono; lra || lia.
Qed.
Lemma lprefix_clamped : forall b s c l, 0 < s -> 0 < c -> lcounts (lbin_clamped s c (length b)) b l -> forall k, (0 < k < length b)%nat -> prefix b k = rcount (rbelow (ledge s c k)) l.
Proof.
  intros b s c l S C H. induction k as [|k IH]; intros L; [lia|].
  destruct (nth_error b k) as [q|] eqn:E; [|apply nth_error_None in E; lia]. rewrite (prefix_S _ _ _ E). rewrite (H _ _ E). destruct k as [|k].
  - unfold prefix. cbn [firstn zlsum fold_right]. rewrite Z.add_0_l. apply rcount_ext. intros x _. unfold lbin_clamped, rbelow. replace (1 =? length b)%nat with false by lia. reflexivity.
  - rewrite IH by lia. rewrite <- (rcount_below_split (ledge s c (Datatypes.S k)) (ledge s c (Datatypes.S (Datatypes.S k)))) by (apply ledge_mono; lra || lia). f_equal.
    apply rcount_ext. intros x _. unfold lbin_clamped, rrange. replace (Datatypes.S (Datatypes.S k) =? length b)%nat with false by lia. reflexivity.
Qed.

(** a sample that add() accepted *)
Lemma l_add_pos : forall fuel (h : lhist reals) x h', l_add reals rlog rexp fuel h (RFin x) = Ok h' -> 0 < x.
Proof.
  intros fuel h x h' E. unfold l_add in E. change (@of_int reals 0) with (RFin 0) in E. rewrite rnlt in E. destruct (rle x 0) eqn:Q; [discriminate|]. now apply rle_false.
Qed.
Lemma l_adds_pos : forall fuel xs (h h' : lhist reals), l_adds reals rlog rexp fuel h (map RFin xs) = Ok h' -> Forall (fun x => 0 < x) xs.
Proof.
  induction xs as [|x xs IH]; intros h h' E; [constructor|]. cbn [map l_adds] in E. destruct (l_add reals rlog rexp fuel h (RFin x)) as [h1| | |] eqn:E1; try discriminate. cbn [bind] in E.
  constructor; [eapply l_add_pos; exact E1|eapply IH; exact E].
Qed.
Lemma lsample_fits : forall (h : lhist reals) s c x k, l_small h = RFin s -> l_scaling h = RFin c -> 0 < s -> 0 < c -> l_sampleBin reals rlog h (RFin x) = Ok k -> fits s c x.
Proof.
  intros h s c x k E1 E3 S C E. unfold fits. destruct (Rle_dec x s) as [X|X]; [now left|right]. unfold l_sampleBin in E. rewrite E1, E3, rnle, (proj2 (rle_false x s)) in E by lra.
  rewrite rndiv in E by lra. rewrite rlog_pos in E by (apply Rdiv_lt_0_compat; lra). cbn [nmul reals rop] in E. unfold floor_unsigned in E. cbn [nfloor reals] in E.
  destruct ((0 <=? Zfloor (c * ln (x / s))) && (Zfloor (c * ln (x / s)) <? 2 ^ 32))%Z eqn:Q; [|discriminate].
  eapply Rlt_le_trans; [apply Zfloor_ub|]. rewrite <- plus_IZR. apply IZR_le. lia.
Qed.
Lemma l_add_fits : forall fuel (h : lhist reals) s hi c l x h', HC h s hi c l -> l_add reals rlog rexp fuel h (RFin x) = Ok h' -> fits s c x.
Proof.
  intros fuel h s hi c l x h' (E1 & E2 & E3 & S & C & EH & Sh & SC & Cn) E. unfold l_add in E. destruct (nlt _ _); [|discriminate]. cbn [invariant bind] in E. unfold l_scale in E. cbn [l_with_base l_scalable] in E. rewrite SC in E. cbn [andb bind] in E.
  match type of E with context[l_sampleBin reals rlog ?h' (RFin x)] => replace (l_sampleBin reals rlog h' (RFin x)) with (l_sampleBin reals rlog h (RFin x)) in E by reflexivity end.
  destruct (l_sampleBin reals rlog h (RFin x)) as [k| | |] eqn:Ek; try discriminate. eapply lsample_fits; eassumption.
Qed.
Lemma l_adds_fits : forall fuel xs (h : lhist reals) s hi c l h', HC h s hi c l -> (Z.of_nat (length l) + Z.of_nat (length xs) < 2 ^ 64)%Z -> l_adds reals rlog rexp fuel h (map RFin xs) = Ok h' -> Forall (fun x => 0 < x /\ fits s c x) xs.
Proof.
  induction xs as [|x xs IH]; intros h s hi c l h' R B E; [constructor|]. cbn [map l_adds length] in *. destruct (l_add reals rlog rexp fuel h (RFin x)) as [h1| | |] eqn:E1; try discriminate. cbn [bind] in E.
  pose proof (l_add_pos _ _ _ _ E1) as X. pose proof (l_add_fits _ _ _ _ _ _ _ _ R E1) as Ft. constructor; [auto|].
  destruct (lfixed_add h s hi c l x fuel R ltac:(lia) X Ft) as (h1' & O1 & R1 & _). assert (h1' = h1) by congruence. subst h1'. eapply (IH h1 s hi c (l ++ [x])); [exact R1|rewrite app_length; cbn [length]; lia|exact E].
Qed.
Lemma number_adds : forall (A : arith) (l : list A) (s : stats A), (0 <= number s)%Z -> (number s + Z.of_nat (length l) < 2 ^ 64)%Z -> number (fold_left (st_add A) l s) = (number s + Z.of_nat (length l))%Z.
Proof. intros A. induction l as [|x l IH]; intros s P Q; cbn [fold_left length] in *; [lia|]. rewrite IH; cbn [st_add number]; rewrite Z.mod_small; lia. Qed.

Lemma lfed : forall bins_in small high sc fuel xs h0 h, (0 < bins_in < 2 ^ 31)%Z -> 0 < small < high -> (Z.of_nat (length xs) < 2 ^ 64)%Z ->
  l_new reals rlog bins_in (RFin small) (RFin high) sc = Ok h0 -> l_adds reals rlog rexp fuel h0 (map RFin xs) = Ok h -> exists s c, LF h s c xs.
Proof.
  intros bins_in small high sc fuel xs h0 h B S L N E.
  destruct (l_new_eq reals rlog rexp bins_in _ _ sc h0 B N) as (T0 & Eb & _ & _).
  destruct (l_adds_total reals rlog rexp fuel (map RFin xs) h0 0 h T0) as ((Sh & NN & T) & Bs & _); [rewrite map_length; lia|exact E|].
  assert (Cn : number (l_base h) = Z.of_nat (length xs)).
  { rewrite Bs, Eb. rewrite (number_adds reals (map RFin xs)); cbn [st_new number]; rewrite ?map_length; lia. }
  rewrite map_length, Z.add_0_l in T.
  destruct (lnew_ok bins_in small high sc B S) as (h0' & c & N' & R & SC & _). assert (h0' = h0) by congruence. subst h0'. destruct sc.
  - destruct (lscal_adds xs h0 small high c [] R SC ltac:(cbn [length]; lia) (l_adds_pos _ _ _ _ E)) as (M & h' & s' & hi' & c' & O & R' & _).
    assert (h' = h). { pose proof (l_adds_mono reals rlog rexp M (Nat.max M fuel) _ h0 _ O ltac:(lia)) as X. pose proof (l_adds_mono reals rlog rexp fuel (Nat.max M fuel) _ h0 _ E ltac:(lia)) as Y. congruence. } subst h'.
    exists s', c'. destruct R' as (E1 & E2 & E3 & S' & C' & EH & _ & Ct & F). repeat (split; [assumption|]). intros k K. apply lprefix_intervals; auto; [|lia]. eapply Forall_impl; [|exact F]. cbn. tauto.
  - pose proof (HL_HC_new _ _ _ _ R SC) as R1. pose proof (l_adds_fits fuel xs h0 small high c [] h R1 ltac:(cbn [length]; lia) E) as Ft.
    destruct (lfixed_adds xs h0 small high c [] fuel R1 ltac:(cbn [length]; lia) Ft) as (h' & O & R' & _). assert (h' = h) by congruence. subst h'.
    exists small, c. destruct R' as (E1 & E2 & E3 & S' & C' & EH & _ & SC' & Ct). repeat (split; [assumption|]). intros k K. now apply lprefix_clamped.
Qed.

(** ** mode and percentile over the reals *)
Lemma binOffset_eq : forall (h : lhist reals) s c x, l_small h = RFin s -> l_scaling h = RFin c -> 0 < c -> binOffset reals rexp h (RFin x) = RFin (s * exp (x / c)).
Proof. intros h s c x E1 E3 C. unfold binOffset. rewrite E1, E3, rndiv by lra. reflexivity. Qed.
Lemma lmode_ok : forall (h : lhist reals) s c, l_small h = RFin s -> l_scaling h = RFin c -> 0 < s -> 0 < c -> lshape reals h ->
  exists k q m, l_mode reals rexp h = Ok (RFin m) /\ m = s * exp ((INR k + 1 / 2) / c) /\ nth_error (l_bins h) k = Some q /\
    forall j x, nth_error (l_bins h) j = Some x -> (x <= q)%Z /\ ((k < j)%nat -> (x < q)%Z).
Proof.
  intros h s c E1 E3 S C (m & L & N & P & NB). destruct (nth_error (l_bins h) 0) as [x0|] eqn:E0; [|apply nth_error_None in E0; lia].
  destruct (mode_loop_ok (length (l_bins h)) (l_bins h) 1 x0 0) as (k & q & E & Ek & H); try lia; [exact E0|intros j x Ej Lj; replace j with 0%nat in * by lia; assert (x = x0) by congruence; lia|].
  exists k, q, (s * exp ((INR k + 1 / 2) / c)). split; [|auto]. unfold l_mode. change 0%Z with (Z.of_nat 0) at 1. rewrite (zget_nth _ _ _ E0). cbn [bind]. rewrite N, <- L.
  change (Z.of_nat 1) with 1%Z in E. change (Z.of_nat 0) with 0%Z in E. rewrite E. cbn [bind]. f_equal. unfold l_bincenter.
  change (@of_int reals 1) with (RFin 1). change (@of_int reals 2) with (RFin 2). rewrite rndiv by lra. cbn [nadd reals rop of_int]. rewrite (binOffset_eq h s c _ E1 E3 C), <- INR_IZR_INZ. reflexivity.
Qed.
Lemma lpercentile_ok : forall (h : lhist reals) s c l p, LF h s c l -> (Z.of_nat (length l) < 2 ^ 64)%Z -> 0 <= p <= 1 ->
  let t := p * INR (length l) in
  exists k q r, l_percentile reals rexp h (RFin p) = Ok (RFin r) /\ nth_error (l_bins h) k = Some q /\
    ((q = 0%Z /\ k = 0%nat /\ r = 0 /\ t = 0) \/
     ((0 < q)%Z /\ (k <> 0%nat -> IZR (prefix (l_bins h) k) < t) /\ t <= IZR (prefix (l_bins h) (S k)) /\ r = s * exp ((INR k + (t - IZR (prefix (l_bins h) k)) / IZR q) / c))).
Proof.
  intros h s c l p (E1 & E3 & S & C & (m & L & N & P & NB) & NN & T & Cn & _) B Hp t.
  assert (I : @nle reals (of_int 0) (RFin p) && @nle reals (RFin p) (of_int 1) = true) by (change (@of_int reals 0) with (RFin 0); change (@of_int reals 1) with (RFin 1); rewrite !rnle; apply andb_true_intro; split; apply rle_iff; lra).
  assert (Et : @nmul reals (RFin p) (of_int (st_count reals (l_base h))) = RFin t) by (unfold st_count, t; rewrite Cn, INR_IZR_INZ; reflexivity).
  assert (Hn : 0 <= INR (length l)) by apply pos_INR. assert (Ht : 0 <= t <= INR (length l)) by (unfold t; nra).
  destruct (l_percentile_safe reals rexp h (RFin p) ltac:(lia) NN ltac:(lia) I) as (k & q & H).
  { rewrite Et, T. change (@of_int reals (Z.of_nat (length l))) with (RFin (IZR (Z.of_nat (length l)))). rewrite rnle, <- INR_IZR_INZ. apply rle_iff. lra. }
  cbv zeta in H. rewrite Et in H. destruct H as (Ek & G1 & G2 & E & Hq). change (@of_int reals (prefix (l_bins h) (Datatypes.S k))) with (RFin (IZR (prefix (l_bins h) (Datatypes.S k)))) in G2. rewrite rnle, rle_iff in G2.
  pose proof (nonneg_le _ _ _ NN Ek) as Q0. pose proof (prefix_S _ _ _ Ek) as Ep. exists k, q. destruct (q =? 0)%Z eqn:Q.
  - exists 0. split; [exact E|]. split; [exact Ek|]. left. apply Z.eqb_eq in Q. specialize (Hq Q). subst k q. repeat (split; [reflexivity|]). rewrite Ep in G2. unfold prefix in G2. cbn in G2. lra.
  - eexists. change (@of_int reals (Z.of_nat k)) with (RFin (IZR (Z.of_nat k))) in E. change (@of_int reals (prefix (l_bins h) k)) with (RFin (IZR (prefix (l_bins h) k))) in E, G1. change (@of_int reals q) with (RFin (IZR q)) in E.
    assert (Hq0 : 0 < IZR q) by (apply IZR_lt; lia). change (@nsub reals (RFin t) (RFin (IZR (prefix (l_bins h) k)))) with (RFin (t - IZR (prefix (l_bins h) k))) in E. rewrite rndiv in E by lra. cbn [nadd reals rop] in E. rewrite (binOffset_eq h s c _ E1 E3 C) in E.
    split; [exact E|]. split; [exact Ek|]. right. split; [lia|]. split; [intros Hk; specialize (G1 Hk); rewrite rnle in G1; now apply rle_false|]. split; [exact G2|]. rewrite <- INR_IZR_INZ. reflexivity.
Qed.
Lemma exp_le : forall x y, x <= y -> exp x <= exp y.
Proof. intros x y [H|H]; [left; now apply exp_increasing|right; now rewrite H]. Qed.
Lemma lpercentile_in_bin : forall s c k f, 0 < s -> 0 < c -> 0 <= f <= 1 -> ledge s c k <= s * exp ((INR k + f) / c) <= ledge s c (S k).
Proof.
  intros s c k f S C F. unfold ledge. rewrite S_INR. split; apply Rmult_le_compat_l; try lra; apply exp_le; apply Rmult_le_compat_r; try lra; left; now apply Rinv_0_lt_compat.
Qed.

(** ** the accumulating variant *)
Definition pmap (l : list (R * R)) : list (reals * reals) := map (fun p => (RFin (fst p), RFin (snd p))) l.
Definition lsums (p : nat -> R -> bool) (v : list reals) (l : list (R * R)) : Prop := forall i y, nth_error v i = Some y -> y = RFin (rtotal (p i) l).
Lemma rtotal_snoc : forall p l x d, rtotal p (l ++ [(x, d)]) = rtotal p l + (if p x then d else 0).
Proof. intros p l x d. unfold rtotal. induction l as [|a l IH]; cbn [app fold_right fst snd]; [ring|]. rewrite IH. ring. Qed.
Lemma lbump_sum : forall (p : nat -> R -> bool) (v : list reals) l x d k, lsums p v l -> (k < length v)%nat -> (forall i, (i < length v)%nat -> p i x = (i =? k)%nat) ->
  exists s v', zget v (Z.of_nat k) = Ok s /\ zput v (Z.of_nat k) (nadd s (RFin d : reals)) = Ok v' /\ length v' = length v /\ lsums p v' (l ++ [(x, d)]).
Proof.
  intros p v l x d k C L P. destruct (get_lt v k L) as (s & E & G). pose proof (C k s E) as Es. subst s. exists (RFin (rtotal (p k) l)), (upd v k (RFin (rtotal (p k) l + d))).
  unfold zget, zput. replace (0 <=? Z.of_nat k)%Z with true by lia. rewrite Nat2Z.id, G, put_ok by exact L.
  repeat split; [apply length_upd|]. intros i y E'. assert (Li : (i < length v)%nat) by (apply nth_error_lt in E'; now rewrite length_upd in E'). rewrite rtotal_snoc, P by exact Li.
  rewrite nth_error_upd in E'. destruct (Nat.eqb_spec k i) as [->|N].
  - match type of E' with context[if ?c then _ else _] => replace c with true in E' by (symmetry; apply Nat.ltb_lt; exact L) end. cbn [andb] in E'. rewrite Nat.eqb_refl. congruence.
  - cbn in E'. replace (i =? k)%nat with false by lia. rewrite Rplus_0_r. now apply C.
Qed.
Definition HA (a : laccum reals) (s hi c : R) (l : list (R * R)) : Prop :=
  HC (la_counts a) s hi c (map fst l) /\ length (la_vals a) = length (l_bins (la_counts a)) /\ lsums (lbin_clamped s c (length (l_bins (la_counts a)))) (la_vals a) l.
Lemma laccum_add : forall (a : laccum reals) s hi c l x d, HA a s hi c l -> (Z.of_nat (length l) + 1 < 2 ^ 64)%Z -> fits s c x ->
  exists a', la_add reals rlog a (RFin x) (RFin d) = Ok a' /\ HA a' s hi c (l ++ [(x, d)]) /\ l_base (la_counts a') = st_add reals (l_base (la_counts a)) (RFin d) /\ length (l_bins (la_counts a')) = length (l_bins (la_counts a)).
Proof.
  intros a s hi c l x d ((E1 & E2 & E3 & S & C & EH & Sh & SC & Cn) & LV & Sm) B Ft.
  destruct (lsample_clamped (la_counts a) s c x E1 E3 S C Sh Ft) as (k & KL & Ek & U).
  destruct (lbump _ (l_bins (la_counts a)) (map fst l) x k Cn KL U ltac:(rewrite map_length; exact B)) as (q & b & G & W & Lb & C').
  assert (KL' : (k < @length rnum (la_vals a))%nat) by (change (@length rnum (la_vals a)) with (@length reals (la_vals a)); rewrite LV; exact KL).
  assert (U' : forall i, (i < @length rnum (la_vals a))%nat -> lbin_clamped s c (length (l_bins (la_counts a))) i x = (i =? k)%nat) by (intros i Hi; apply U; change (@length rnum (la_vals a)) with (@length reals (la_vals a)) in Hi; rewrite LV in Hi; exact Hi).
  destruct (lbump_sum (lbin_clamped s c (length (l_bins (la_counts a)))) (la_vals a) l x d k Sm KL' U') as (y & v & Gv & Wv & Lv & Cv).
  exists (mkLAccum reals (l_with_bins reals (l_with_base reals (la_counts a) (st_add reals (l_base (la_counts a)) (RFin d))) b) v).
  unfold la_add. cbv zeta. match goal with |- context[l_sampleBin reals rlog ?h' (RFin x)] => replace (l_sampleBin reals rlog h' (RFin x)) with (l_sampleBin reals rlog (la_counts a) (RFin x)) by reflexivity end.
  rewrite Ek. cbn [bind l_bins l_with_base]. rewrite G. cbn [bind]. rewrite W. cbn [bind]. rewrite Gv. cbn [bind]. rewrite Wv. cbn [bind]. split; [reflexivity|]. split; [|split; [reflexivity|exact Lb]].
  unfold HA, HC, lshape. cbn [la_counts la_vals l_with_bins l_with_base l_small l_high l_scaling l_bins l_num l_scalable]. rewrite Lb, map_app. split; [repeat (split; [assumption|]); exact C'|]. split; [rewrite <- LV; exact Lv|exact Cv].
Qed.
Lemma laccum_adds : forall l2 (a : laccum reals) s hi c l, HA a s hi c l -> (Z.of_nat (length l) + Z.of_nat (length l2) < 2 ^ 64)%Z -> Forall (fun p => fits s c (fst p)) l2 ->
  exists a', la_adds reals rlog a (pmap l2) = Ok a' /\ HA a' s hi c (l ++ l2) /\ l_base (la_counts a') = fold_left (st_add reals) (map (fun p => RFin (snd p)) l2) (l_base (la_counts a)) /\ length (l_bins (la_counts a')) = length (l_bins (la_counts a)).
Proof.
  induction l2 as [|[x d] l2 IH]; intros a s hi c l R B F.
  - exists a. rewrite app_nil_r. cbn. auto.
  - inversion_clear F as [|? ? X F']. cbn [length fst] in *. destruct (laccum_add a s hi c l x d R ltac:(lia) X) as (a1 & O1 & R1 & B1 & L1).
    destruct (IH a1 s hi c (l ++ [(x, d)]) R1 ltac:(rewrite app_length; cbn [length]; lia) F') as (a2 & O2 & R2 & B2 & L2).
    exists a2. cbn [pmap map la_adds fst snd fold_left]. rewrite O1. cbn [bind]. rewrite <- app_assoc in R2. split; [exact O2|]. split; [exact R2|]. split; [rewrite B2, B1; reflexivity|congruence].
Qed.
Lemma laccum_new : forall bins_in small high, (0 < bins_in < 2 ^ 31)%Z -> 0 < small < high ->
  exists a h c, la_new reals rlog bins_in (RFin small) (RFin high) = Ok a /\ l_new reals rlog bins_in (RFin small) (RFin high) false = Ok h /\ HA a small high c [] /\ l_base (la_counts a) = st_new reals /\ Z.of_nat (length (l_bins (la_counts a))) = (2 * ((bins_in + 1) / 2))%Z.
Proof.
  intros bins_in small high B S. destruct (lnew_ok bins_in small high false B S) as (h & c & E & R & SC & L & N). pose proof (HL_HC_new _ _ _ _ R SC) as R1. exists (la_reset reals (mkLAccum reals h (repeat (of_int 0) (Z.to_nat (l_num h))))), h, c.
  split; [unfold la_new; rewrite E; reflexivity|]. split; [exact E|].
  assert (Eb : l_bins h = repeat 0%Z (length (l_bins h))).
  { destruct (l_new_eq reals rlog rexp bins_in _ _ false h B E) as (_ & _ & _ & Q). rewrite Q at 1. f_equal. lia. }
  unfold la_reset. cbn [la_counts la_vals]. split; [split; [|split]|split].
  - destruct R1 as (E1 & E2 & E3 & S' & C' & EH & Sh & SC' & Ct). unfold HC, lshape, l_reset, l_with_bins, l_with_base. cbn [l_small l_high l_scaling l_bins l_num l_scalable la_counts]. rewrite <- Eb. repeat (split; [assumption|]). exact Ct.
  - cbn [la_counts la_vals l_reset l_with_bins l_bins]. rewrite !repeat_length. lia.
  - intros i y E'. cbn [la_vals] in E'. apply nth_error_In, repeat_spec in E'. subst y. reflexivity.
  - reflexivity.
  - cbn [la_counts l_reset l_with_bins l_with_base l_bins]. rewrite repeat_length. exact L.
Qed.
