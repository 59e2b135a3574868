(** Proofs: StatsHistogramGroup over exact arithmetic. *)
From Coq Require Import List ZArith QArith Qround Bool Lqa Lia ZifyBool ZifyNat Setoid.
From Verif Require Import Common CommonFacts Arith Stats_Spec Stats_Model Stats_Proofs Histogram_Spec Histogram_Model Histogram_Arr Histogram_Proofs.
Import ListNotations.
Local Open Scope Q_scope.

Definition fed (l : list Q) : stats exact := fold_left (st_add exact) (map Fin l) (st_new exact).
Lemma fed_snoc : forall l x, fed (l ++ [x]) = st_add exact (fed l) (Fin x).
Proof. intros. unfold fed. now rewrite map_app, fold_left_app. Qed.
Lemma fed_rep : forall l, Rep (fed l) l.
Proof. intros l. induction l as [|x l IH] using rev_ind; [apply Rep_new|]. rewrite fed_snoc. now apply Rep_add. Qed.

Lemma below_iff : forall b x, below b x = true <-> x < b.
Proof. intros. unfold below. rewrite negb_true_iff. apply Qle_bool_false. Qed.
Lemma at_least_iff : forall b x, at_least b x = true <-> b <= x.
Proof. intros. unfold at_least. apply Qle_bool_iff. Qed.
Lemma filter_snoc : forall {X} (p : X -> bool) l x, filter p (l ++ [x]) = filter p l ++ (if p x then [x] else []).
Proof. intros. rewrite filter_app. reflexivity. Qed.

Lemma find_range_Some : forall x ends k j, find_range exact (Fin x) (map Fin ends) k = Some j ->
  exists i, j = (k + i)%nat /\ (exists e, nth_error ends i = Some e /\ x < e) /\ (forall i' e, (i' < i)%nat -> nth_error ends i' = Some e -> e <= x).
Proof.
  intros x. induction ends as [|e ends IH]; intros k j E; cbn [map find_range] in E; [discriminate|].
  rewrite nlt_fin in E. destruct (Qle_bool_spec' e x) as [G|G]; cbn [negb] in E.
  - destruct (IH (S k) j E) as (i & -> & (e' & N & L) & A). exists (S i). split; [lia|]. split; [exists e'; auto|].
    intros [|i'] f Li Nf; [cbn in Nf; congruence|]. apply (A i'); [lia|exact Nf].
  - injection E as <-. exists 0%nat. split; [lia|]. split; [exists e; split; [reflexivity|lra]|]. intros; lia.
Qed.
Lemma find_range_None : forall x ends k, find_range exact (Fin x) (map Fin ends) k = None -> forall e, In e ends -> e <= x.
Proof.
  intros x. induction ends as [|e ends IH]; intros k E f; [intros []|intros [<-|Hf]]; cbn [map find_range] in E; rewrite nlt_fin in E;
    destruct (Qle_bool_spec' e x) as [G|G]; cbn [negb] in E; try discriminate; auto. eapply IH; eauto.
Qed.
Lemma increasing_tail : forall a r, increasing (a :: r) -> increasing r.
Proof. intros a [|b r] H; [exact I|apply H]. Qed.
Lemma increasing_nth : forall r i j a b, increasing r -> (i < j)%nat -> nth_error r i = Some a -> nth_error r j = Some b -> a < b.
Proof.
  induction r as [|c r IH]; intros i j a b H L Ea Eb; [destruct i; discriminate|]. destruct j as [|j]; [lia|]. cbn in Eb. destruct i as [|i].
  - cbn in Ea. injection Ea as ->. destruct r as [|d r]; [destruct j; discriminate|]. destruct H as [H1 H2]. destruct j as [|j].
    + cbn in Eb. injection Eb as <-. exact H1.
    + assert (d < b) by (apply (IH 0%nat (S j) d b H2); [lia|reflexivity|exact Eb]). lra.
  - cbn in Ea. apply (IH i j a b); auto; [now apply (increasing_tail c)|lia].
Qed.

Section Group.
Variable buckets : Z.
Hypothesis HB : (0 < buckets < 2 ^ 31)%Z.

Definition hist_ok (h : hist exact) (a b : Q) (xs : list Q) : Prop :=
  exists w, HF h a b w (filter (in_range a b) xs) /\ base h = fed (filter (in_range a b) xs) /\ num_bins h = even_bins buckets.
Definition GInv (g : group exact) (r : list Q) (r0 rn : Q) (xs : list Q) : Prop :=
  ranges g = map Fin r /\ length r = S (length (histograms g)) /\ nth_error r 0 = Some r0 /\ nth_error r (length (histograms g)) = Some rn /\
  g_base g = fed xs /\ g_low g = fed (filter (below r0) xs) /\ g_high g = fed (filter (at_least rn) xs) /\
  forall i h a b, nth_error (histograms g) i = Some h -> nth_error r i = Some a -> nth_error r (S i) = Some b -> hist_ok h a b xs.

Lemma even_small : (even_bins buckets < 2 ^ 32)%Z.
Proof. unfold even_bins. Z.to_euclidean_division_equations; lia. Qed.

Lemma hist_ok_in : forall h a b xs x fuel, hist_ok h a b xs -> a <= x -> x < b -> (Z.of_nat (length xs) + 1 < 2 ^ 64)%Z ->
  exists h', h_add exact fuel h (Fin x) = Ok h' /\ hist_ok h' a b (xs ++ [x]).
Proof.
  intros h a b xs x fuel (w & R & EB & EN) A B NL. set (ys := filter (in_range a b) xs) in *.
  assert (LY : (Z.of_nat (length ys) <= Z.of_nat (length xs))%Z) by (unfold ys; pose proof (zcount_le (in_range a b) xs) as Z; unfold zcount in Z; lia).
  pose proof even_small as ES.
  destruct (fixed_add h a b w ys x fuel R ltac:(lia) ltac:(lia)) as (h' & O & R' & N' & B'). exists h'. split; [exact O|].
  assert (FE : filter (in_range a b) (xs ++ [x]) = ys ++ [x]) by (rewrite filter_snoc, (proj2 (in_range_iff a b x)) by auto; reflexivity).
  exists w. rewrite FE. split; [exact R'|]. split; [rewrite B', EB, fed_snoc; reflexivity|congruence].
Qed.
Lemma hist_ok_out : forall h a b xs x, hist_ok h a b xs -> in_range a b x = false -> hist_ok h a b (xs ++ [x]).
Proof. intros h a b xs x H E. unfold hist_ok. rewrite filter_snoc, E, app_nil_r. exact H. Qed.

Lemma g_add_ok : forall g r r0 rn xs x fuel, increasing r -> GInv g r r0 rn xs -> (Z.of_nat (length xs) + 1 < 2 ^ 64)%Z ->
  exists g', g_add exact fuel g (Fin x) = Ok g' /\ GInv g' r r0 rn (xs ++ [x]) /\ length (histograms g') = length (histograms g).
Proof.
  intros g r r0 rn xs x fuel INC (E1 & E2 & E3 & E4 & E5 & E6 & E7 & E8) NL.
  destruct r as [|r0' rt]; [discriminate|]. injection E3 as ->.
  unfold g_add. rewrite E1. cbn [map get nth_error bind tl]. rewrite nlt_fin.
  change (get (Fin r0 :: map Fin rt) 0) with (@Ok xnum (Fin r0)). cbn [bind].
  destruct (Qle_bool_spec' r0 x) as [G|G]; cbn [negb].
  - assert (LOW : filter (below r0) (xs ++ [x]) = filter (below r0) xs).
    { rewrite filter_snoc. replace (below r0 x) with false; [apply app_nil_r|]. symmetry. apply not_true_iff_false. rewrite below_iff. lra. }
    destruct (find_range exact (Fin x) (map Fin rt) 0) as [k|] eqn:FR.
    + apply find_range_Some in FR as (i & -> & (e & Ne & Le) & A). cbn [Nat.add] in *.
      assert (Li : (i < length (histograms g))%nat) by (apply nth_error_lt in Ne; cbn [length] in E2; lia).
      destruct (get_lt _ _ Li) as (h & Nh & Gh). rewrite Gh. cbn [bind].
      assert (exists a, nth_error (r0 :: rt) i = Some a /\ a <= x) as (a & Na & La).
      { destruct i as [|i]; [exists r0; auto|]. cbn [nth_error]. destruct (nth_error rt i) as [a|] eqn:Na.
        - exists a. split; [reflexivity|]. apply (A i); [lia|exact Na].
        - apply nth_error_None in Na. apply nth_error_lt in Ne. lia. }
      destruct (hist_ok_in h a e xs x fuel (E8 i h a e Nh Na Ne) La Le NL) as (h' & O & H').
      rewrite O. cbn [bind]. rewrite put_ok by exact Li. cbn [bind]. eexists. split; [reflexivity|].
      cbn [histograms]. split; [|apply length_upd]. unfold GInv. cbn [ranges histograms g_base g_low g_high]. rewrite length_upd.
      split; [reflexivity|]. split; [exact E2|]. split; [reflexivity|]. split; [exact E4|].
      split; [now rewrite fed_snoc, E5|]. split; [now rewrite LOW|]. split.
      * rewrite filter_snoc. replace (at_least rn x) with false; [now rewrite app_nil_r|]. symmetry. apply not_true_iff_false. rewrite at_least_iff.
        destruct (Nat.eq_dec (S i) (length (histograms g))) as [Q|Q].
        -- rewrite <- Q in E4. cbn [nth_error] in E4. assert (rn = e) by congruence. subst. lra.
        -- assert (e < rn) by (apply (increasing_nth (r0 :: rt) (S i) (length (histograms g))); auto; lia). lra.
      * intros j hj aj bj Nj Naj Nbj. rewrite nth_error_upd in Nj. destruct (Nat.eqb_spec i j) as [->|NE]; cbn [andb] in Nj.
        -- replace (j <? length (histograms g))%nat with true in Nj by lia. injection Nj as <-. cbn [nth_error] in Nbj.
           assert (aj = a) by congruence. assert (bj = e) by congruence. subst. exact H'.
        -- apply hist_ok_out; [eapply E8; eauto|]. apply not_true_iff_false. rewrite in_range_iff. intros [P1 P2].
           destruct (Nat.lt_ge_cases i j) as [L|L].
           ++ assert (e <= aj). { destruct (Nat.eq_dec (S i) j) as [Q|Q]; [subst j; cbn [nth_error] in Naj; assert (aj = e) by congruence; subst; lra|].
                apply Qlt_le_weak. apply (increasing_nth (r0 :: rt) (S i) j); auto; lia. } lra.
           ++ assert (bj <= a). { destruct (Nat.eq_dec (S j) i) as [Q|Q]; [subst i; assert (a = bj) by congruence; subst; lra|].
                apply Qlt_le_weak. apply (increasing_nth (r0 :: rt) (S j) i); auto; lia. } lra.
    + pose proof (find_range_None _ _ _ FR) as A. eexists. split; [reflexivity|]. cbn [histograms]. split; [|reflexivity].
      assert (Lrn : rn <= x).
      { destruct (length (histograms g)) as [|n] eqn:Ln; cbn [nth_error] in E4; [injection E4 as <-; lra|]. apply nth_error_In in E4. auto. }
      unfold GInv. cbn [ranges histograms g_base g_low g_high].
      split; [reflexivity|]. split; [exact E2|]. split; [reflexivity|]. split; [exact E4|].
      split; [now rewrite fed_snoc, E5|]. split; [now rewrite LOW|]. split.
      * rewrite filter_snoc, (proj2 (at_least_iff rn x) Lrn), fed_snoc, E7. reflexivity.
      * intros j hj aj bj Nj Naj Nbj. apply hist_ok_out; [eapply E8; eauto|]. apply not_true_iff_false. rewrite in_range_iff. intros [P1 P2].
        cbn [nth_error] in Nbj. apply nth_error_In in Nbj. apply A in Nbj. lra.
  - eexists. split; [reflexivity|]. cbn [histograms]. split; [|reflexivity]. unfold GInv. cbn [ranges histograms g_base g_low g_high].
    split; [reflexivity|]. split; [exact E2|]. split; [reflexivity|]. split; [exact E4|].
    assert (GE : forall j a, nth_error (r0 :: rt) j = Some a -> r0 <= a).
    { intros [|j] a Na; [injection Na as <-; lra|]. apply Qlt_le_weak. apply (increasing_nth (r0 :: rt) 0 (S j)); auto; lia. }
    split; [now rewrite fed_snoc, E5|]. split; [rewrite filter_snoc, (proj2 (below_iff r0 x)), fed_snoc, E6 by lra; reflexivity|]. split.
    + rewrite filter_snoc. replace (at_least rn x) with false; [now rewrite app_nil_r|]. symmetry. apply not_true_iff_false. rewrite at_least_iff.
      apply GE in E4. lra.
    + intros j hj aj bj Nj Naj Nbj. apply hist_ok_out; [eapply E8; eauto|]. apply not_true_iff_false. rewrite in_range_iff. intros [P1 P2].
      apply GE in Naj. lra.
Qed.
Lemma g_adds_ok : forall ys g r r0 rn xs fuel, increasing r -> GInv g r r0 rn xs -> (Z.of_nat (length xs + length ys) < 2 ^ 64)%Z ->
  exists g', g_adds exact fuel g (map Fin ys) = Ok g' /\ GInv g' r r0 rn (xs ++ ys) /\ length (histograms g') = length (histograms g).
Proof.
  induction ys as [|y ys IH]; intros g r r0 rn xs fuel INC R NL.
  - exists g. rewrite app_nil_r. split; [reflexivity|]. split; [exact R|reflexivity].
  - cbn [length] in NL. destruct (g_add_ok g r r0 rn xs y fuel INC R ltac:(lia)) as (g1 & O1 & R1 & L1).
    destruct (IH g1 r r0 rn (xs ++ [y]) fuel INC R1 ltac:(rewrite app_length; cbn [length]; lia)) as (g2 & O2 & R2 & L2).
    exists g2. rewrite <- app_assoc in R2. split; [|split; [exact R2|congruence]]. cbn [map g_adds]. rewrite O1. exact O2.
Qed.

Lemma make_hists_cons : forall (a b : xnum) (r : list xnum), make_hists exact buckets (a :: b :: r) =
  let! h := h_new exact (u32 buckets) a b false false in let! t := make_hists exact buckets (b :: r) in Ok (h :: t).
Proof. reflexivity. Qed.
Lemma make_hists_ok : forall r, increasing r -> exists hs, make_hists exact buckets (map Fin r) = Ok hs /\ length hs = (length r - 1)%nat /\
  forall i h a b, nth_error hs i = Some h -> nth_error r i = Some a -> nth_error r (S i) = Some b -> hist_ok h a b [].
Proof.
  induction r as [|a r IH]; intros INC.
  - exists []. split; [reflexivity|]. split; [reflexivity|]. intros [|]; discriminate.
  - destruct r as [|b r].
    + exists []. split; [reflexivity|]. split; [reflexivity|]. intros [|]; discriminate.
    + destruct INC as [AB INC]. destruct (IH INC) as (hs & O & L & A).
      destruct (new_eq buckets a b false false HB AB eq_refl) as (h & w & ON & W1 & W2 & W3 & W4 & W5 & W6 & W7 & W8 & W9).
      destruct (new_width buckets a b w HB AB W4) as (V1 & V2 & V3 & V4 & V5).
      exists (h :: hs). cbn [map] in *. rewrite make_hists_cons.
      assert (U : u32 buckets = buckets) by (unfold u32; apply Z.mod_small; lia). rewrite U, ON. cbn [bind].
      rewrite O. cbn [bind]. split; [reflexivity|]. split; [cbn [length] in *; lia|].
      intros [|i] h' a' b' Nh Na Nb; cbn [nth_error] in *.
      * injection Nh as <-. injection Na as <-. injection Nb as <-. exists w. split; [|split; [exact W9|exact W5]].
        unfold HF. rewrite W6, repeat_length. split; [exact W1|]. split; [exact W2|]. split; [exact W3|]. split; [exact V1|]. split; [exact V2|].
        split; [exact V3|]. split; [rewrite W5; lia|]. split; [exact W7|]. split; [exact W8|].
        intros i c Ec. now apply (empty_counts (clamped a w (length (repeat 0%Z (Z.to_nat (even_bins buckets)))))) in Ec.
      * eapply A; eauto.
Qed.
End Group.

Lemma counts_telescope : forall r a xs b, increasing (a :: r) -> nth_error (a :: r) (length r) = Some b ->
  (zlsum (map (fun p => zcount (in_range (fst p) (snd p)) xs) (combine (a :: r) r)) = zcount (in_range a b) xs)%Z.
Proof.
  induction r as [|c r IH]; intros a xs b INC E.
  - cbn in E. injection E as <-. cbn. symmetry. apply zcount_0. intros x _. apply not_true_iff_false. rewrite in_range_iff. lra.
  - change (combine (a :: c :: r) (c :: r)) with ((a, c) :: combine (c :: r) r). destruct INC as [AC INC].
    change (zlsum (map ?f ((a, c) :: ?l))) with (f (a, c) + zlsum (map f l))%Z. cbn beta. cbn [fst snd].
    cbn [length nth_error] in E. rewrite (IH c xs b INC E). apply zcount_split; [lra|].
    destruct r as [|d r]; [cbn in E; injection E as <-; lra|]. apply Qlt_le_weak. apply (increasing_nth (c :: d :: r) 0 (length (d :: r))); auto; cbn; lia.
Qed.
Lemma below_above_range : forall a b xs, a <= b -> (zcount (below a) xs + zcount (in_range a b) xs + zcount (at_least b) xs = Z.of_nat (length xs))%Z.
Proof.
  intros a b xs AB. unfold zcount. induction xs as [|x xs IH]; [reflexivity|]. cbn [filter].
  destruct (below a x) eqn:E1, (in_range a b x) eqn:E2, (at_least b x) eqn:E3; cbn [length]; try lia; exfalso;
    repeat match goal with
    | H : ?t = false |- _ => apply not_true_iff_false in H
    end; rewrite ?below_iff, ?in_range_iff, ?at_least_iff in *; try lra.
Qed.
