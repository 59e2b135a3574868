(** Proofs for C92. *)
From Coq Require Import List ZArith QArith Bool Lia Lqa ZifyBool ZifyNat.
From Verif Require Import Common CommonFacts Arith Stats_Model Histogram_Model Histogram_Arr HistAccum_Model HistAccum_Proofs LogHist_Model Series_Model Sequence_Model EMA_Model Group_Model Quantile_Model Fresh_Model Fresh_Spec.
Import ListNotations.
Local Open Scope Z_scope.

Ltac inv_bind H :=
  match type of H with
  | bind ?x _ = Ok _ => let E := fresh "E" in destruct x eqn:E in H; cbn [bind] in H; try discriminate H
  end.
Lemma invariant_ok : forall b u, invariant b = Ok u -> b = true.
Proof. intros [|] u H; [reflexivity|discriminate]. Qed.

Section G.
Variable A : arith.

(** ** the uniform histogram *)
Definition ushape (h : hist A) : Prop :=
  is_growable h = false /\ exists m, num_bins h = Z.of_nat (2 * m) /\ (0 < m)%nat /\ num_bins h <= 2 ^ 31 /\ length (bins h) = (2 * m)%nat.
Definition ufixed (h : hist A) : Prop := ushape h /\ is_scalable h = false.

Lemma h_new_shape : forall n lo hi s g h, 0 < n < 2 ^ 31 -> g = false -> h_new A n lo hi s g = Ok h ->
  ushape h /\ is_scalable h = s /\ bin_low h = lo /\ bin_high h = hi /\ nle lo hi = true /\ h_reset A h = h /\ base h = st_new A.
Proof.
  intros n lo hi s g h B -> E. unfold h_new in E. inv_bind E. apply invariant_ok in E0. inv_bind E. inv_bind E. apply Ok_inj in E. subst h.
  assert (U : u32 (n + 1) = n + 1) by (unfold u32; apply Z.mod_small; lia). rewrite U in *. split; [|repeat split; auto; unfold h_reset; cbn [base num_bins bin_high bin_low bins is_scalable is_growable]; now rewrite !repeat_length].
  split; [reflexivity|]. exists (Z.to_nat ((n + 1) / 2)). cbn [h_reset num_bins bins]. rewrite !repeat_length. Z.to_euclidean_division_equations; lia.
Qed.
(** the constructor called with an even number of bins *)
Lemma h_new_even : forall h, ushape h -> nle (bin_low h) (bin_high h) = true -> h_new A (num_bins h) (bin_low h) (bin_high h) (is_scalable h) (is_growable h) = Ok (h_reset A h).
Proof.
  intros h (G & m & N & P & B & L) LE. unfold h_new. rewrite LE, G. replace (0 <? num_bins h) with true by lia. cbn [invariant bind andb negb].
  assert (U : 2 * (u32 (num_bins h + 1) / 2) = num_bins h) by (unfold u32; rewrite Z.mod_small by lia; rewrite N; Z.to_euclidean_division_equations; lia).
  rewrite U. unfold h_reset. cbn [base num_bins bin_high bin_low bins is_scalable is_growable]. rewrite repeat_length, G, L. do 2 f_equal. f_equal. lia.
Qed.
Lemma h_reset_idem : forall h, h_reset A (h_reset A h) = h_reset A h.
Proof. intros h. unfold h_reset. cbn [base num_bins bin_high bin_low bins is_scalable is_growable]. now rewrite repeat_length. Qed.
Lemma h_reset_shape : forall h, ushape h -> ushape (h_reset A h).
Proof. intros h (G & m & H). split; [exact G|]. exists m. cbn [h_reset num_bins bins]. now rewrite repeat_length. Qed.

Lemma low_once_shape : forall h h', ushape h -> scale_low_once A h = Ok h' -> ushape h' /\ is_scalable h' = is_scalable h /\ num_bins h' = num_bins h /\ base h' = base h.
Proof.
  intros h h' (G & m & N & P & B & L) E. rewrite (scale_low_once_eq A h m L N P B) in E. apply Ok_inj in E. subst h'. split; [|auto]. split; [exact G|].
  exists m. cbn [num_bins bins]. rewrite app_length, repeat_length, (pairs_length m) by exact L. lia.
Qed.
Lemma high_once_shape : forall h h', ushape h -> scale_high_once A h = Ok h' -> ushape h' /\ is_scalable h' = is_scalable h /\ num_bins h' = num_bins h /\ base h' = base h.
Proof.
  intros h h' (G & m & N & P & B & L) E. rewrite (scale_high_once_eq A h m L N) in E. apply Ok_inj in E. subst h'. split; [|auto]. split; [exact G|].
  exists m. cbn [num_bins bins]. rewrite app_length, repeat_length, (pairs_length m) by exact L. lia.
Qed.
(** a relation on bounds that every doubling keeps *)
Definition keeps_bounds (P : A -> A -> Prop) : Prop :=
  forall lo hi, P lo hi -> P (nsub lo (nsub hi lo)) hi /\ P lo (nadd hi (nsub hi lo)).
Lemma low_once_bounds : forall P h h', keeps_bounds P -> ushape h -> P (bin_low h) (bin_high h) -> scale_low_once A h = Ok h' -> P (bin_low h') (bin_high h').
Proof. intros Q h h' K (G & m & N & P & B & L) H E. rewrite (scale_low_once_eq A h m L N P B) in E. apply Ok_inj in E. subst h'. exact (proj1 (K _ _ H)). Qed.
Lemma high_once_bounds : forall P h h', keeps_bounds P -> ushape h -> P (bin_low h) (bin_high h) -> scale_high_once A h = Ok h' -> P (bin_low h') (bin_high h').
Proof. intros Q h h' K (G & m & N & P & B & L) H E. rewrite (scale_high_once_eq A h m L N) in E. apply Ok_inj in E. subst h'. exact (proj2 (K _ _ H)). Qed.
Lemma low_shape : forall P f h v h', keeps_bounds P -> ushape h -> P (bin_low h) (bin_high h) -> scale_low A f h v = Ok h' ->
  ushape h' /\ is_scalable h' = is_scalable h /\ num_bins h' = num_bins h /\ P (bin_low h') (bin_high h').
Proof.
  intros P f. induction f as [|f IH]; intros h v h' K S H E; cbn [scale_low] in E; destruct (nlt v (bin_low h)); try discriminate; try (apply Ok_inj in E; subst h'; auto; fail).
  inv_bind E. destruct (low_once_shape _ _ S E0) as (S1 & C1 & N1 & _). pose proof (low_once_bounds P _ _ K S H E0) as H1.
  destruct (IH _ _ _ K S1 H1 E) as (S2 & C2 & N2 & H2). repeat split; try congruence; apply S2 || exact H2.
Qed.
Lemma high_shape : forall P f h v h', keeps_bounds P -> ushape h -> P (bin_low h) (bin_high h) -> scale_high A f h v = Ok h' ->
  ushape h' /\ is_scalable h' = is_scalable h /\ num_bins h' = num_bins h /\ P (bin_low h') (bin_high h').
Proof.
  intros P f. induction f as [|f IH]; intros h v h' K S H E; cbn [scale_high] in E; destruct (nle (bin_high h) v); try discriminate; try (apply Ok_inj in E; subst h'; auto; fail).
  inv_bind E. destruct (high_once_shape _ _ S E0) as (S1 & C1 & N1 & _). pose proof (high_once_bounds P _ _ K S H E0) as H1.
  destruct (IH _ _ _ K S1 H1 E) as (S2 & C2 & N2 & H2). repeat split; try congruence; apply S2 || exact H2.
Qed.
Lemma h_add_shape : forall P f h v h', keeps_bounds P -> ushape h -> P (bin_low h) (bin_high h) -> h_add A f h v = Ok h' ->
  ushape h' /\ is_scalable h' = is_scalable h /\ num_bins h' = num_bins h /\ P (bin_low h') (bin_high h') /\
  (is_scalable h = false -> h_reset A h' = h_reset A h).
Proof.
  intros P f h v h' K S H E. unfold h_add in E. set (h0 := with_base A h _) in E. assert (S0 : ushape h0) by exact S.
  assert (G : grow A h0 v = Ok h0) by (unfold grow; change (is_growable h0) with (is_growable h); rewrite (proj1 S); reflexivity). rewrite G in E. cbn [bind] in E.
  inv_bind E. rename a into h2. assert (S2 : ushape h2 /\ is_scalable h2 = is_scalable h /\ num_bins h2 = num_bins h /\ P (bin_low h2) (bin_high h2) /\ (is_scalable h = false -> h2 = h0)).
  { unfold scale in E0. change (is_scalable h0) with (is_scalable h) in E0. destruct (is_scalable h) eqn:SC; cbn [andb] in E0.
    - destruct (_ || _) in E0; [|apply Ok_inj in E0; subst h2; repeat split; auto; try exact SC; apply S0].
      destruct (scale_low A f h0 v) as [h1| | |] eqn:E1; try discriminate. cbn [bind] in E0.
      destruct (low_shape P f h0 v h1 K S0 H E1) as (S1 & C1 & N1 & H1). destruct (high_shape P f h1 v h2 K S1 H1 E0) as (S3 & C3 & N3 & H3).
      split; [exact S3|]. split; [rewrite C3, C1; exact SC|]. split; [rewrite N3, N1; reflexivity|]. split; [exact H3|discriminate].
    - apply Ok_inj in E0. subst h2. repeat split; auto; try exact SC; apply S0. }
  destruct S2 as (S2 & C2 & N2 & H2 & F2). inv_bind E. inv_bind E. inv_bind E. apply Ok_inj in E. subst h'.
  match goal with Z : zput _ _ _ = Ok ?b |- _ => apply zput_inv in Z as (k & _ & _ & Eb) end. subst.
  split; [|split; [exact C2|split; [exact N2|split; [exact H2|]]]].
  - destruct S2 as (G2 & m & Q). split; [exact G2|]. exists m. cbn [with_bins num_bins bins]. now rewrite length_upd.
  - intros SC. rewrite (F2 SC). unfold h_reset. cbn [with_bins base num_bins bin_high bin_low bins is_scalable is_growable h0 with_base]. now rewrite length_upd.
Qed.

(** ** with a second array *)
Definition ashape (a : accum A) : Prop := ushape (counts a) /\ length (val_bins a) = Z.to_nat (num_bins (counts a)).
Lemma a_reset_eq : forall a, ashape a -> a_reset A a = Ok (mkAccum (h_reset A (counts a)) (repeat (of_int 0) (Z.to_nat (num_bins (counts a))))).
Proof.
  intros a (S & L). unfold a_reset. change (num_bins (h_reset A (counts a))) with (num_bins (counts a)).
  pose proof (zero_vals_ok A (Z.to_nat (num_bins (counts a))) [] (val_bins a) L) as Z. cbn [app length Z.of_nat] in Z. rewrite Z. reflexivity.
Qed.
Lemma a_add_shape : forall P f a x d a', keeps_bounds P -> ashape a -> P (bin_low (counts a)) (bin_high (counts a)) -> a_add A f a x d = Ok a' ->
  ashape a' /\ is_scalable (counts a') = is_scalable (counts a) /\ num_bins (counts a') = num_bins (counts a) /\ P (bin_low (counts a')) (bin_high (counts a')) /\
  (is_scalable (counts a) = false -> h_reset A (counts a') = h_reset A (counts a)).
Proof.
  intros P f a x d a' K (S & L) H E. destruct (add_like A f a (counts a) a' x d ltac:(unfold like, with_base; now destruct (counts a)) (proj1 S) E) as (h' & O & LK & _ & V & _).
  destruct (h_add_shape P f (counts a) x h' K S H O) as (S' & C' & N' & H' & F'). unfold like in LK.
  assert (Q : counts a' = with_base A h' (base (counts a'))) by (rewrite LK; destruct (counts a'); reflexivity). rewrite Q. cbn [with_base bin_low bin_high is_scalable num_bins].
  split; [|split; [exact C'|split; [exact N'|split; [exact H'|]]]].
  - split; [rewrite Q; exact S'|]. rewrite Q. cbn [with_base num_bins]. rewrite V, L, N'. reflexivity.
  - intros SC. rewrite <- (F' SC). reflexivity.
Qed.
Lemma a_new_shape : forall n lo hi s g a, 0 < n < 2 ^ 31 -> g = false -> a_new A n lo hi s g = Ok a ->
  ashape a /\ is_scalable (counts a) = s /\ bin_low (counts a) = lo /\ bin_high (counts a) = hi /\ nle lo hi = true /\ a_reset A a = Ok a.
Proof.
  intros n lo hi s g a B -> E. unfold a_new in E. inv_bind E. rename a0 into h. destruct (h_new_shape n lo hi s false h B eq_refl E0) as (S & C & LO & HI & LE & R & _).
  unfold a_reset in E. cbn [counts val_bins] in E. rewrite R in E. inv_bind E. apply Ok_inj in E. subst a. cbn [counts].
  destruct S as (G & m & N & P & B' & L). assert (EV : Z.to_nat n = Z.to_nat (num_bins h)).
  { destruct (Z.eq_dec (num_bins h) n) as [->|D]; [reflexivity|]. exfalso.
    assert (num_bins h = 2 * ((n + 1) / 2)). { unfold h_new in E0. inv_bind E0. inv_bind E0. inv_bind E0. apply Ok_inj in E0. subst h. cbn [h_reset num_bins]. unfold u32. rewrite Z.mod_small by lia. reflexivity. }
    pose proof (zero_vals_ub A (Z.to_nat (num_bins h)) [] (repeat (of_int 0) (Z.to_nat n))) as U. rewrite repeat_length in U. cbn [app length Z.of_nat] in U.
    rewrite U in E1 by (Z.to_euclidean_division_equations; lia). discriminate E1. }
  rewrite EV in E1. pose proof (zero_vals_ok A (Z.to_nat (num_bins h)) [] (repeat (of_int 0) (Z.to_nat (num_bins h))) (repeat_length _ _)) as Z. cbn [app length Z.of_nat] in Z. rewrite Z in E1. apply Ok_inj in E1. subst.
  assert (S : ushape h) by (split; [exact G|]; exists m; auto).
  split; [split; [exact S|cbn [val_bins counts]; now rewrite repeat_length]|]. repeat (split; [first [reflexivity|assumption]|]).
  rewrite a_reset_eq by (split; [exact S|cbn [val_bins counts]; now rewrite repeat_length]). cbn [counts]. now rewrite R.
Qed.
Lemma a_new_even : forall a, ashape a -> nle (bin_low (counts a)) (bin_high (counts a)) = true ->
  a_new A (num_bins (counts a)) (bin_low (counts a)) (bin_high (counts a)) (is_scalable (counts a)) (is_growable (counts a)) = a_reset A a.
Proof.
  intros a S LE. unfold a_new. rewrite (h_new_even _ (proj1 S) LE). cbn [bind].
  rewrite (a_reset_eq a S). assert (S' : ashape (mkAccum (h_reset A (counts a)) (repeat (of_int 0) (Z.to_nat (num_bins (counts a)))))).
  { split; [now apply h_reset_shape, S|]. cbn [val_bins counts h_reset num_bins]. now rewrite repeat_length. }
  rewrite (a_reset_eq _ S'). cbn [counts h_reset num_bins]. rewrite h_reset_idem. reflexivity.
Qed.

(** ** the other classes *)
Lemma se_add_reset : forall s v s', se_add A s v = Ok s' -> se_reset A s' = se_reset A s.
Proof.
  intros s v s' E. unfold se_add in E. inv_bind E. inv_bind E. inv_bind E. destruct a1 as [p f]. apply Ok_inj in E. subst s'. reflexivity.
Qed.
Lemma sq_add_reset : forall s v s', sq_add A s v = Ok s' -> sq_reset A s' = sq_reset A s.
Proof.
  intros s v s' E. unfold sq_add in E. inv_bind E. destruct a as [[vals ppb] rem]. destruct (rem - 1 =? 0).
  - inv_bind E. apply Ok_inj in E. subst s'. reflexivity.
  - apply Ok_inj in E. subst s'. reflexivity.
Qed.

(** ** the group of histograms *)
Definition gfixed (g : Histogram_Model.group A) : Prop := Forall ufixed (histograms g).
Definition hg_reset (g : Histogram_Model.group A) : Histogram_Model.group A :=
  Histogram_Model.mkGroup A (st_reset A (Histogram_Model.g_base g)) (map (h_reset A) (histograms g)) (ranges g) (st_reset A (Histogram_Model.g_low g)) (st_reset A (Histogram_Model.g_high g)).
Lemma make_hists_fixed : forall n r hs, 0 < n < 2 ^ 31 -> make_hists A n r = Ok hs -> Forall ufixed hs /\ map (h_reset A) hs = hs.
Proof.
  intros n r. induction r as [|a r IH]; intros hs B E; [cbn [make_hists] in E; apply Ok_inj in E; subst hs; split; [constructor|reflexivity]|].
  destruct r as [|b r]; [cbn [make_hists] in E; apply Ok_inj in E; subst hs; split; [constructor|reflexivity]|]. change (make_hists A n (a :: b :: r)) with (let! h := h_new A (u32 n) a b false false in let! t := make_hists A n (b :: r) in Ok (h :: t)) in E.
  inv_bind E. inv_bind E. apply Ok_inj in E. subst hs. destruct (IH _ B E1) as [F R]. replace (u32 n) with n in E0 by (unfold u32; rewrite Z.mod_small; lia).
  destruct (h_new_shape n a b false false a0 B eq_refl E0) as (S & C & _ & _ & _ & R0 & _). split; [constructor; [split; assumption|exact F]|cbn [map]; now rewrite R0, R].
Qed.
Lemma hg_new_fixed : forall n r g, 0 < n < 2 ^ 31 -> Histogram_Model.g_new A n r = Ok g -> gfixed g /\ hg_reset g = g.
Proof.
  intros n r g B E. unfold Histogram_Model.g_new in E. inv_bind E. inv_bind E. apply Ok_inj in E. subst g. destruct (make_hists_fixed n r _ B E1) as [F R]. split; [exact F|]. unfold hg_reset. cbn [histograms ranges]. rewrite R. reflexivity.
Qed.
Lemma map_upd : forall {X Y} (f : X -> Y) l k x y, nth_error l k = Some y -> f x = f y -> map f (upd l k x) = map f l.
Proof. intros X Y f l. induction l as [|a l IH]; intros [|k] x y N H; cbn in N; try discriminate; cbn [upd map]; [congruence|]. f_equal. now apply IH with y. Qed.
Lemma Forall_upd : forall {X} (P : X -> Prop) l k x, Forall P l -> P x -> Forall P (upd l k x).
Proof. intros X P l. induction l as [|a l IH]; intros [|k] x F H; cbn [upd]; try assumption; inversion_clear F; constructor; auto. Qed.
Lemma hg_add_fixed : forall f g v g', gfixed g -> Histogram_Model.g_add A f g v = Ok g' -> gfixed g' /\ hg_reset g' = hg_reset g.
Proof.
  intros f g v g' F E. unfold Histogram_Model.g_add in E. inv_bind E. destruct (nlt v a); [apply Ok_inj in E; subst g'; split; [exact F|reflexivity]|].
  destruct (find_range A v (tl (ranges g)) 0) as [k|]; [|apply Ok_inj in E; subst g'; split; [exact F|reflexivity]].
  inv_bind E. inv_bind E. inv_bind E. apply Ok_inj in E. subst g'. unfold get in E1. destruct (nth_error (histograms g) k) as [h|] eqn:N; [|discriminate]. apply Ok_inj in E1. subst a0.
  unfold put in E3. destruct (_ <? _)%nat; [|discriminate]. apply Ok_inj in E3. subst a2.
  assert (Fh : ufixed h) by (unfold gfixed in F; rewrite Forall_forall in F; apply F; now apply nth_error_In in N).
  destruct (h_add_shape (fun _ _ => True) f h v a1 ltac:(intros ? ? ?; auto) (proj1 Fh) I E2) as (S1 & C1 & _ & _ & R1). specialize (R1 (proj2 Fh)). split.
  - unfold gfixed. cbn [histograms]. apply Forall_upd; [exact F|]. split; [exact S1|rewrite C1; apply Fh].
  - unfold hg_reset. cbn [histograms ranges]. now rewrite (map_upd _ _ k _ h).
Qed.
(** ** the logarithmic histograms with a fixed range *)
Variable log_ : A -> A.
Definition lfixed (h : lhist A) : Prop :=
  l_scalable h = false /\ exists m, l_num h = Z.of_nat (2 * m) /\ (0 < m)%nat /\ l_num h <= 2 ^ 31 /\ length (l_bins h) = (2 * m)%nat /\
  l_scaling h = ndiv (of_int (l_num h)) (log_ (ndiv (l_high h) (l_small h))) /\ nlt (of_int 0) (l_small h) = true /\ nle (l_small h) (l_high h) = true.
Lemma l_new_fixed : forall n lo hi h, 0 < n < 2 ^ 31 -> l_new A log_ n lo hi false = Ok h -> lfixed h /\ l_reset A h = h.
Proof.
  intros n lo hi h B E. unfold l_new in E. inv_bind E. inv_bind E. apply invariant_ok in E1. inv_bind E. apply invariant_ok in E2. apply Ok_inj in E. subst h.
  assert (U : u32 (n + 1) = n + 1) by (unfold u32; apply Z.mod_small; lia). rewrite U. split.
  - split; [reflexivity|]. exists (Z.to_nat ((n + 1) / 2)). unfold l_reset, l_with_bins, l_with_base. cbn [l_base l_num l_bins l_scaling l_high l_small]. rewrite !repeat_length.
    split; [Z.to_euclidean_division_equations; lia|]. split; [Z.to_euclidean_division_equations; lia|]. split; [Z.to_euclidean_division_equations; lia|]. split; [Z.to_euclidean_division_equations; lia|]. auto.
  - unfold l_reset, l_with_bins, l_with_base. cbn [l_base l_num l_bins l_scaling l_high l_small l_scalable]. now rewrite !repeat_length.
Qed.
Lemma l_new_even : forall h, lfixed h -> l_new A log_ (l_num h) (l_small h) (l_high h) false = Ok (l_reset A h).
Proof.
  intros h (SC & m & N & P & B & L & S & X & Y). unfold l_new. rewrite X, Y. replace (0 <? l_num h) with true by lia. cbn [invariant bind].
  assert (U : 2 * (u32 (l_num h + 1) / 2) = l_num h) by (unfold u32; rewrite Z.mod_small by lia; rewrite N; Z.to_euclidean_division_equations; lia).
  rewrite U, <- S. unfold l_reset, l_with_bins, l_with_base. cbn [l_base l_num l_bins l_scaling l_high l_small l_scalable]. rewrite repeat_length, SC, L. do 3 f_equal. lia.
Qed.
Lemma l_reset_idem : forall h, l_reset A (l_reset A h) = l_reset A h.
Proof. intros h. unfold l_reset, l_with_bins, l_with_base. cbn [l_base l_num l_bins l_scaling l_high l_small l_scalable]. now rewrite repeat_length. Qed.
Lemma l_reset_fixed : forall h, lfixed h -> lfixed (l_reset A h).
Proof. intros h (SC & m & Q). split; [exact SC|]. exists m. unfold l_reset, l_with_bins, l_with_base. cbn [l_base l_num l_bins l_scaling l_high l_small l_scalable]. now rewrite repeat_length. Qed.
Lemma l_put_fixed : forall h s b k c, lfixed h -> b = upd (l_bins h) k c -> let h' := l_with_bins A (l_with_base A h s) b in lfixed h' /\ l_reset A h' = l_reset A h.
Proof.
  intros h s b k c (SC & m & Q) ->. split.
  - split; [exact SC|]. exists m. unfold l_with_bins, l_with_base. cbn [l_base l_num l_bins l_scaling l_high l_small l_scalable]. now rewrite length_upd.
  - unfold l_reset, l_with_bins, l_with_base. cbn [l_base l_num l_bins l_scaling l_high l_small l_scalable]. now rewrite length_upd.
Qed.
Definition lafixed (a : laccum A) : Prop := lfixed (la_counts a) /\ length (la_vals a) = Z.to_nat (l_num (la_counts a)).
Lemma la_new_fixed : forall n lo hi a, 0 < n < 2 ^ 31 -> la_new A log_ n lo hi = Ok a -> lafixed a /\ la_reset A a = a.
Proof.
  intros n lo hi a B E. unfold la_new in E. inv_bind E. rename a0 into h. apply Ok_inj in E. subst a. destruct (l_new_fixed n lo hi h B E0) as [F R].
  unfold la_reset. cbn [la_counts la_vals]. rewrite R, repeat_length. split; [|cbn [la_counts la_vals]; now rewrite R, repeat_length].
  split; [exact F|]. cbn [la_counts la_vals]. now rewrite repeat_length.
Qed.
Lemma la_new_even : forall a, lafixed a -> la_new A log_ (l_num (la_counts a)) (l_small (la_counts a)) (l_high (la_counts a)) = Ok (la_reset A a).
Proof.
  intros a (F & L). unfold la_new. rewrite (l_new_even _ F). cbn [bind]. unfold la_reset. cbn [la_counts la_vals]. rewrite l_reset_idem, repeat_length, L. reflexivity.
Qed.
Lemma la_add_fixed : forall a x d a', lafixed a -> la_add A log_ a x d = Ok a' -> lafixed a' /\ la_reset A a' = la_reset A a.
Proof.
  intros a x d a' (F & L) E. unfold la_add in E. inv_bind E. inv_bind E. inv_bind E. inv_bind E. inv_bind E. apply Ok_inj in E. subst a'.
  match goal with Z : zput (l_bins _) _ _ = Ok _ |- _ => apply zput_inv in Z as (k & _ & _ & Eb) end. match goal with Z : zput (la_vals _) _ _ = Ok _ |- _ => apply zput_inv in Z as (j & _ & _ & Ev) end.
  pose proof (l_put_fixed (la_counts a) (st_add A (l_base (la_counts a)) d) _ k _ F Eb) as [F' R']. subst. split.
  - split; [exact F'|]. cbn [la_counts la_vals]. rewrite length_upd. exact L.
  - unfold la_reset. cbn [la_counts la_vals]. rewrite R', length_upd. reflexivity.
Qed.

Variable exp_ : A -> A.
Lemma l_add_fixed : forall f h v h', lfixed h -> l_add A log_ exp_ f h v = Ok h' -> lfixed h' /\ l_reset A h' = l_reset A h.
Proof.
  intros f h v h' F E. unfold l_add in E. inv_bind E. unfold l_scale in E. change (l_scalable (l_with_base A h (st_add A (l_base h) v))) with (l_scalable h) in E. rewrite (proj1 F) in E. cbn [andb bind] in E.
  inv_bind E. inv_bind E. inv_bind E. apply Ok_inj in E. subst h'. match goal with Z : zput _ _ _ = Ok ?b |- _ => apply zput_inv in Z as (k & _ & _ & Eb) end. exact (l_put_fixed h _ _ k _ F Eb).
Qed.
End G.
Definition fixed_inv (A : arith) (log_ : A -> A) (o0 o : obj A) : Prop :=
  o_reset A o = Ok o0 /\
  match o0, o with
  | OStats _, OStats _ | OSequence _, OSequence _ => True
  | OUniform _, OUniform h => ufixed A h /\ nle (bin_low h) (bin_high h) = true
  | OUniformAccum _, OUniformAccum a => ashape A a /\ is_scalable (counts a) = false /\ nle (bin_low (counts a)) (bin_high (counts a)) = true
  | OLog _, OLog h => lfixed A log_ h
  | OLogAccum _, OLogAccum a => lafixed A log_ a
  | OSeries _, OSeries s => (0 < max_lag s)%nat
  | OHistogramGroup _, OHistogramGroup g => gfixed A g
  | _, _ => False
  end.
Lemma ufixed_bounds : forall A f h v h', ufixed A h -> h_add A f h v = Ok h' -> bin_low h' = bin_low h /\ bin_high h' = bin_high h.
Proof.
  intros A f h v h' (S & C) E. destruct (h_add_shape A (fun _ _ => True) f h v h' ltac:(intros ? ? ?; auto) S I E) as (_ & _ & _ & _ & R). specialize (R C).
  split; [exact (f_equal (fun x => bin_low x) R)|exact (f_equal (fun x => bin_high x) R)].
Qed.
Lemma fixed_new : forall A log_ b o0, fixed_build b -> o_new A log_ b = Ok o0 -> fixed_inv A log_ o0 o0.
Proof.
  intros A log_ b o0 F E. destruct b; cbn [fixed_build] in F; try contradiction; cbn [o_new] in E.
  - apply Ok_inj in E. subst o0. split; [reflexivity|exact I].
  - destruct F as (B & -> & ->). inv_bind E. apply Ok_inj in E. subst o0. destruct (h_new_shape A _ _ _ _ _ _ B eq_refl E0) as (S & C & L & H & LE & R & _).
    split; [cbn [o_reset]; now rewrite R|]. split; [split; assumption|]. now rewrite L, H.
  - destruct F as (B & -> & ->). inv_bind E. apply Ok_inj in E. subst o0. destruct (a_new_shape A _ _ _ _ _ _ B eq_refl E0) as (S & C & L & H & LE & R).
    split; [cbn [o_reset]; now rewrite R|]. split; [assumption|]. split; [assumption|]. now rewrite L, H.
  - destruct F as (B & ->). inv_bind E. apply Ok_inj in E. subst o0. destruct (l_new_fixed A log_ _ _ _ _ B E0) as (S & R). split; [cbn [o_reset]; now rewrite R|exact S].
  - inv_bind E. apply Ok_inj in E. subst o0. destruct (la_new_fixed A log_ _ _ _ _ F E0) as (S & R). split; [cbn [o_reset]; now rewrite R|exact S].
  - inv_bind E. apply Ok_inj in E. subst o0. unfold se_new in E0. inv_bind E0. apply invariant_ok in E. apply Ok_inj in E0. subst a. split; [reflexivity|]. cbn [se_reset max_lag]. lia.
  - inv_bind E. apply Ok_inj in E. subst o0. unfold sq_new in E0. inv_bind E0. inv_bind E0. apply Ok_inj in E0. subst a. split; [reflexivity|exact I].
  - inv_bind E. apply Ok_inj in E. subst o0. destruct (hg_new_fixed A _ _ _ F E0) as (S & R). split; [cbn [o_reset]; fold (hg_reset A a); now rewrite R|exact S].
Qed.
Lemma fixed_add : forall A log_ exp_ fuel o0 o x o', fixed_inv A log_ o0 o -> o_add A log_ exp_ fuel o x = Ok o' -> fixed_inv A log_ o0 o'.
Proof.
  intros A log_ exp_ fuel o0 o x o' (R & S) E. destruct o0, o; try contradiction; cbn [o_add] in E.
  - apply Ok_inj in E. subst o'. split; [exact R|exact I].
  - inv_bind E. apply Ok_inj in E. subst o'. destruct S as (S & LE). destruct (ufixed_bounds A _ _ _ _ S E0) as [E1 E2].
    destruct (h_add_shape A (fun _ _ => True) _ _ _ _ ltac:(intros ? ? ?; auto) (proj1 S) I E0) as (S1 & C1 & _ & _ & R1). specialize (R1 (proj2 S)).
    split; [cbn [o_reset] in *; now rewrite R1|]. split; [split; [exact S1|rewrite C1; apply S]|]. now rewrite E1, E2.
  - inv_bind E. apply Ok_inj in E. subst o'. destruct S as (S & C & LE).
    destruct (a_add_shape A (fun _ _ => True) _ _ _ _ _ ltac:(intros ? ? ?; auto) S I E0) as (S1 & C1 & N1 & _ & R1). specialize (R1 C).
    split. { cbn [o_reset] in *. rewrite (a_reset_eq A _ S) in R. rewrite (a_reset_eq A _ S1), R1, N1. exact R. }
    split; [exact S1|]. split; [congruence|]. pose proof (f_equal (fun x => bin_low x) R1) as E1. pose proof (f_equal (fun x => bin_high x) R1) as E2. cbn [h_reset bin_low bin_high] in E1, E2. now rewrite E1, E2.
  - inv_bind E. apply Ok_inj in E. subst o'. destruct (l_add_fixed A log_ exp_ _ _ _ _ S E0) as [S1 R1]. split; [cbn [o_reset] in *; now rewrite R1|exact S1].
  - inv_bind E. apply Ok_inj in E. subst o'. destruct (la_add_fixed A log_ _ _ _ _ S E0) as [S1 R1]. split; [cbn [o_reset] in *; now rewrite R1|exact S1].
  - inv_bind E. apply Ok_inj in E. subst o'. pose proof (se_add_reset A _ _ _ E0) as R1. split; [cbn [o_reset] in *; now rewrite R1|]. pose proof (f_equal (fun x => max_lag x) R1) as M. cbn [se_reset max_lag] in M. now rewrite M.
  - inv_bind E. apply Ok_inj in E. subst o'. pose proof (sq_add_reset A _ _ _ E0) as R1. split; [cbn [o_reset] in *; now rewrite R1|exact I].
  - inv_bind E. apply Ok_inj in E. subst o'. destruct (hg_add_fixed A _ _ _ _ S E0) as [S1 R1]. split; [cbn [o_reset] in *; fold (hg_reset A g0) in R; fold (hg_reset A a); now rewrite R1|exact S1].
Qed.

Lemma fixed_add2 : forall A log_ exp_ fuel o0 o x y o', fixed_inv A log_ o0 o -> o_add2 A log_ exp_ fuel o x y = Ok o' -> fixed_inv A log_ o0 o'.
Proof.
  intros A log_ exp_ fuel o0 o x y o' I E. destruct o; cbn [o_add2] in E; try (exact (fixed_add A log_ exp_ fuel o0 _ x o' I E)); try discriminate.
  - unfold h_add2 in E. inv_bind E. unfold bind in E0. destruct (invariant (neq x y)); try discriminate. apply (fixed_add A log_ exp_ fuel o0 (OUniform h) x o' I). cbn [o_add]. rewrite E0. exact E.
  - inv_bind E. apply Ok_inj in E. subst o'. destruct I as (R & S). destruct o0; try contradiction. destruct S as (S & C & LE).
    destruct (a_add_shape A (fun _ _ => True) _ _ _ _ _ ltac:(intros ? ? ?; auto) S Logic.I E0) as (S1 & C1 & N1 & _ & R1). specialize (R1 C).
    split. { cbn [o_reset] in *. rewrite (a_reset_eq A _ S) in R. rewrite (a_reset_eq A _ S1), R1, N1. exact R. }
    split; [exact S1|]. split; [congruence|]. pose proof (f_equal (fun x => bin_low x) R1) as E1. pose proof (f_equal (fun x => bin_high x) R1) as E2. cbn [h_reset bin_low bin_high] in E1, E2. now rewrite E1, E2.
  - destruct (invariant (neq x y)) eqn:E1 in E; cbn [bind] in E; try discriminate. exact (fixed_add A log_ exp_ fuel o0 (OLog h) x o' I E).
  - inv_bind E. apply Ok_inj in E. subst o'. destruct I as (R & S). destruct o0; try contradiction. destruct (la_add_fixed A log_ _ _ _ _ S E0) as [S1 R1]. split; [cbn [o_reset] in *; now rewrite R1|exact S1].
  - destruct I as (_ & S). destruct o0; contradiction.
Qed.
Lemma fixed_reset : forall A log_ o0 o o', fixed_inv A log_ o0 o0 -> fixed_inv A log_ o0 o -> o_reset A o = Ok o' -> o' = o0.
Proof. intros A log_ o0 o o' _ (R & _) E. rewrite R in E. now apply Ok_inj in E. Qed.
Lemma fixed_run : forall A log_ exp_ fuel l o0 o o', fixed_inv A log_ o0 o0 -> fixed_inv A log_ o0 o -> o_run A log_ exp_ fuel o l = Ok o' -> fixed_inv A log_ o0 o'.
Proof.
  intros A log_ exp_ fuel l o0. induction l as [|x l IH]; intros o o' I0 I E; cbn [o_run] in E; [apply Ok_inj in E; now subst o'|].
  inv_bind E. apply (IH _ _ I0) in E; [exact E|]. destruct x; cbn [o_step] in E0.
  - exact (fixed_add _ _ _ _ _ _ _ _ I E0).
  - exact (fixed_add2 _ _ _ _ _ _ _ _ _ I E0).
  - apply (fixed_reset _ _ _ _ _ I0 I) in E0. now subst.
Qed.
Lemma fixed_another : forall A log_ o0 o, fixed_inv A log_ o0 o -> own_another_new (class_of o) -> another_new A log_ o = o_reset A o.
Proof.
  intros A log_ o0 o (R & S) C. destruct o0, o; try contradiction; cbn [another_new o_new o_reset].
  - reflexivity.
  - destruct S as (S & LE). now rewrite (h_new_even A _ (proj1 S) LE).
  - destruct S as (S & SC & LE). now rewrite (a_new_even A _ S LE).
  - rewrite (proj1 S), (l_new_even A log_ _ S). reflexivity.
  - now rewrite (la_new_even A log_ _ S).
  - unfold se_new. rewrite (proj2 (Nat.ltb_lt _ _) S). reflexivity.
Qed.

(** ** doubling ranges *)
Definition keeps_inv (A : arith) (P : A -> A -> Prop) (c : cls) (n : Z) (o : obj A) : Prop :=
  class_of o = c /\
  match o with
  | OUniform h => ushape A h /\ num_bins h = n /\ P (bin_low h) (bin_high h)
  | OUniformAccum a => ashape A a /\ num_bins (counts a) = n /\ P (bin_low (counts a)) (bin_high (counts a))
  | _ => False
  end.
Lemma keeps_step : forall A log_ exp_ P c n fuel o x o', keeps_bounds A P -> keeps_inv A P c n o -> o_step A log_ exp_ fuel o x = Ok o' -> keeps_inv A P c n o'.
Proof.
  intros A log_ exp_ P c n fuel o x o' K (<- & I) E. destruct o; try contradiction; destruct I as (S & N & H).
  - assert (AD : forall v h', h_add A fuel h v = Ok h' -> keeps_inv A P CUniform n (OUniform h')).
    { intros v h' E1. destruct (h_add_shape A P fuel h v h' K S H E1) as (S1 & _ & N1 & H1 & _). split; [reflexivity|]. split; [exact S1|]. split; [congruence|exact H1]. }
    destruct x; cbn [o_step o_add o_add2 o_reset] in E.
    + inv_bind E. apply Ok_inj in E. subst o'. exact (AD _ _ E0).
    + unfold h_add2 in E. destruct (invariant (neq x y)); cbn [bind] in E; try discriminate. inv_bind E. apply Ok_inj in E. subst o'. exact (AD _ _ E0).
    + apply Ok_inj in E. subst o'. split; [reflexivity|]. split; [now apply h_reset_shape|]. split; [exact N|exact H].
  - assert (AD : forall v d a', a_add A fuel a v d = Ok a' -> keeps_inv A P CUniformAccum n (OUniformAccum a')).
    { intros v d a' E1. destruct (a_add_shape A P fuel a v d a' K S H E1) as (S1 & _ & N1 & H1 & _). split; [reflexivity|]. split; [exact S1|]. split; [congruence|exact H1]. }
    destruct x; cbn [o_step o_add o_add2 o_reset] in E.
    + inv_bind E. apply Ok_inj in E. subst o'. exact (AD _ _ _ E0).
    + inv_bind E. apply Ok_inj in E. subst o'. exact (AD _ _ _ E0).
    + rewrite (a_reset_eq A a S) in E. cbn [bind] in E. apply Ok_inj in E. subst o'. split; [reflexivity|]. split; [|split; [exact N|exact H]].
      split; [now apply h_reset_shape, S|]. cbn [val_bins counts h_reset num_bins]. now rewrite repeat_length.
Qed.
Lemma keeps_run : forall A log_ exp_ P c n fuel l o o', keeps_bounds A P -> keeps_inv A P c n o -> o_run A log_ exp_ fuel o l = Ok o' -> keeps_inv A P c n o'.
Proof.
  intros A log_ exp_ P c n fuel l. induction l as [|x l IH]; intros o o' K I E; cbn [o_run] in E; [apply Ok_inj in E; now subst o'|].
  inv_bind E. exact (IH _ _ K (keeps_step _ _ _ _ _ _ _ _ _ _ K I E0) E).
Qed.
Definition ordered (lo hi : exact) : Prop := exists a b, lo = Fin a /\ hi = Fin b /\ (a <= b)%Q.
Lemma ordered_keeps : keeps_bounds exact ordered.
Proof.
  intros lo hi (a & b & -> & -> & H). split; [exists (a + - (b + - a))%Q, b|exists a, (b + (b + - a))%Q]; (split; [reflexivity|]; split; [reflexivity|]); lra.
Qed.
Lemma ordered_le : forall lo hi, ordered lo hi -> @nle exact lo hi = true.
Proof. intros lo hi (a & b & -> & -> & H). cbn [nle exact xle]. now apply Qle_bool_iff. Qed.
