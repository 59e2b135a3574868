From Coq Require Import List Arith ZArith QArith Qround Lqa Lia Bool ZifyBool ZifyNat.
From Verif Require Import Common CommonFacts ListFacts Arith Stats_Spec Stats_Model Stats_Proofs EMA_Model EMA_Spec.
Import ListNotations.
Local Open Scope nat_scope.

(** ** The loop over the decay rates *)
Definition em_one A (st : stats A) (value : A) (e d : A) (low : bool) : A * bool :=
  if low then if nlt (ndiv (of_int 1) d) (of_int (st_count A st)) then (updateEMA A e d value, false) else (st_mean A st, true)
  else (updateEMA A e d value, false).

Lemma em_loop_spec A st value n : forall i (s : ema A), i + n <= length (ema_values s) -> length (ema_values s) = length (decay_rates s) -> length (count_low s) = length (decay_rates s) ->
  exists s', em_loop A st value (seq i n) s = Ok s' /\ em_stats s' = em_stats s /\ decay_rates s' = decay_rates s /\ length (ema_values s') = length (decay_rates s) /\ length (count_low s') = length (decay_rates s) /\
  forall j e d low, nth_error (ema_values s) j = Some e -> nth_error (decay_rates s) j = Some d -> nth_error (count_low s) j = Some low ->
    let r := if (i <=? j) && (j <? i + n) then em_one A st value e d low else (e, low) in
    nth_error (ema_values s') j = Some (fst r) /\ nth_error (count_low s') j = Some (snd r).
Proof.
  induction n as [|n IH]; intros i s Hi L1 L2.
  - exists s. split; [reflexivity|]. repeat (split; [auto; fail|]). intros j e d low E1 E2 E3. replace ((i <=? j) && (j <? i + 0)) with false by lia. cbn. auto.
  - cbn [seq em_loop]. destruct (get_lt (count_low s) i) as (low & El & Gl); [lia|]. destruct (get_lt (decay_rates s) i) as (d & Ed & Gd); [lia|]. destruct (get_lt (ema_values s) i) as (e & Ee & Ge); [lia|].
    rewrite Gl, Gd, Ge. cbn [bind].
    set (s1 := mkEma (em_stats s) (upd (ema_values s) i (fst (em_one A st value e d low))) (decay_rates s) (upd (count_low s) i (snd (em_one A st value e d low)))).
    match goal with |- context [bind ?c _] => assert (E1 : c = Ok s1) end.
    { unfold s1, em_one. destruct low; [destruct (nlt _ _)|]; cbn [fst snd]; rewrite !put_ok by lia; cbn [bind]; try reflexivity; f_equal; f_equal; symmetry; apply upd_same; auto. }
    rewrite E1. cbn [bind]. destruct (IH (S i) s1) as (s' & E' & Es & Er & La & Lb & H).
    { cbn. rewrite length_upd. lia. } { cbn. now rewrite length_upd. } { cbn. now rewrite length_upd. }
    exists s'. split; [exact E'|]. split; [exact Es|]. split; [exact Er|]. split; [exact La|]. split; [exact Lb|]. intros j e' d' low' H1 H2 H3. cbn [s1 ema_values decay_rates count_low] in H.
    destruct (Nat.eq_dec j i) as [->|Nj].
    + assert (e' = e) by congruence. assert (d' = d) by congruence. assert (low' = low) by congruence. subst.
      specialize (H i _ d _ (nth_error_upd_eq (ema_values s) i _ ltac:(lia)) H2 (nth_error_upd_eq (count_low s) i _ ltac:(lia))).
      replace ((S i <=? i) && (i <? S i + n)) with false in H by lia. replace ((i <=? i) && (i <? i + S n)) with true by lia. exact H.
    + specialize (H j e' d' low'). rewrite !nth_error_upd_neq in H by lia. specialize (H H1 H2 H3). replace ((i <=? j) && (j <? i + S n)) with ((S i <=? j) && (j <? S i + n)) by lia. exact H.
Qed.

(** ** The representation *)
Definition EInv (s : ema exact) (rates : list Q) (l : list Q) : Prop :=
  Rep (em_stats s) l /\ decay_rates s = map Fin rates /\ length (ema_values s) = length rates /\ length (count_low s) = length rates /\
  forall i d, nth_error rates i = Some d -> exists e, nth_error (ema_values s) i = Some e /\ nth_error (count_low s) i = Some (length l <=? warm_up d) /\ fin_eq e (ema_of d l).

Definition rate_ok (d : Q) : Prop := (0 < d /\ d < 1)%Q.

Lemma warm_pos d : rate_ok d -> 1 <= warm_up d /\ (inject_Z (Z.of_nat (warm_up d)) <= 1 / d)%Q.
Proof.
  intros [H0 H1]. unfold warm_up. assert (H : (1 <= 1 / d)%Q) by (apply Qle_shift_div_l; lra). apply Qfloor_resp_le in H. change (Qfloor 1) with 1%Z in H. split; [lia|].
  rewrite Z2Nat.id by lia. apply Qfloor_le.
Qed.
Lemma warm_lt d n : rate_ok d -> xlt (xdiv (Fin (inject_Z 1)) (Fin d)) (Fin (inject_Z (Z.of_nat n))) = (warm_up d <? n).
Proof.
  intros R. pose proof (warm_pos d R) as [W1 W2]. destruct R as [H0 H1]. cbn [xdiv]. replace (Qeq_bool d 0) with false by (symmetry; apply Qeq_bool_false; lra).
  change (inject_Z 1) with 1%Q. destruct (Nat.ltb_spec (warm_up d) n) as [H|H].
  - apply xlt_fin. pose proof (Qlt_floor (1 / d)) as F. eapply Qlt_le_trans; [exact F|]. rewrite <- Zle_Qle. unfold warm_up in H. lia.
  - apply xlt_fin_false. eapply Qle_trans; [|exact W2]. rewrite <- Zle_Qle. lia.
Qed.

Lemma ema_warm d l : length l <= warm_up d -> ema_of d l = qmean l.
Proof. intros H. unfold ema_of. rewrite skipn_all2, firstn_all2 by lia. reflexivity. Qed.
Lemma ema_snoc d l v : warm_up d <= length l -> ema_of d (l ++ [v]) = smooth d (ema_of d l) v.
Proof.
  intros H. unfold ema_of. rewrite skipn_app, firstn_app. replace (warm_up d - length l) with 0 by lia. cbn [skipn firstn]. rewrite app_nil_r, fold_left_app. reflexivity.
Qed.

Lemma update_ok d x e v : fin_eq x e -> fin_eq (updateEMA exact x (Fin d) (Fin v)) (smooth d e v).
Proof. intros (q & -> & E). eexists. split; [reflexivity|]. unfold smooth. rewrite E. change (inject_Z 1) with 1%Q. ring. Qed.

Lemma em_new_spec rates s : em_new exact (map Fin rates) = Ok s -> rates <> [] /\ (forall d, In d rates -> rate_ok d) /\ EInv s rates [].
Proof.
  unfold em_new. match goal with |- context [invariant ?c] => destruct c eqn:E1; [|discriminate] end. cbn [invariant bind].
  match goal with |- context [invariant ?c] => destruct c eqn:E2; [|discriminate] end. cbn [invariant bind]. intros H. injection H as <-.
  assert (R : forall d, In d rates -> rate_ok d).
  { intros d Hd. rewrite forallb_forall in E2. specialize (E2 (Fin d) (in_map Fin _ _ Hd)). apply andb_prop in E2. destruct E2 as [A B]. apply xlt_fin in A, B. split; auto. }
  split; [intros ->; discriminate E1|]. split; [exact R|]. split; [apply Rep_new|]. split; [reflexivity|]. cbn [ema_values count_low]. rewrite !repeat_length, !map_length. split; [reflexivity|]. split; [reflexivity|].
  intros i d Hi. pose proof (nth_error_lt _ _ _ Hi) as Li. exists (Fin (inject_Z 0)). rewrite !(nth_error_repeat _ Li). split; [reflexivity|]. split; [reflexivity|]. exists (inject_Z 0). split; [reflexivity|].
  rewrite ema_warm by (cbn; lia). reflexivity.
Qed.

Theorem em_add_inv s rates l v : (forall d, In d rates -> rate_ok d) -> (Z.of_nat (S (length l)) < 2 ^ 64)%Z -> EInv s rates l ->
  exists s', em_add exact s (Fin v) = Ok s' /\ EInv s' rates (l ++ [v]).
Proof.
  intros HR HL (R & Ed & L1 & L2 & H). unfold em_add. set (st := st_add exact (em_stats s) (Fin v)). pose proof (Rep_add _ _ v R) as R'. fold st in R'.
  assert (LN : (Z.of_nat (length (l ++ [v])) < 2 ^ 64)%Z) by (rewrite app_length; cbn [length]; lia). assert (Ld : @length (num exact) (decay_rates s) = length rates) by (rewrite Ed; apply map_length).
  assert (L1' : @length (num exact) (ema_values s) = length rates) by exact L1.
  destruct (em_loop_spec exact st (Fin v) (length (ema_values s)) 0 (mkEma st (ema_values s) (decay_rates s) (count_low s))) as (s' & E & Es & Er & La & Lb & K); cbn [ema_values decay_rates count_low em_stats] in *; try lia.
  exists s'. split; [exact E|]. split; [rewrite Es; exact R'|]. split; [rewrite Er; exact Ed|]. split; [etransitivity; [exact La|exact Ld]|]. split; [etransitivity; [exact Lb|exact Ld]|].
  intros i d Hi. destruct (H i d Hi) as (e & E1 & E2 & E3). assert (Di : nth_error (decay_rates s) i = Some (Fin d)) by (rewrite Ed; now apply map_nth_error).
  specialize (K i e (Fin d) _ E1 Di E2). pose proof (nth_error_lt _ _ _ Hi) as Li. replace ((0 <=? i) && (i <? 0 + length (ema_values s))) with true in K by lia. cbv zeta in K.
  assert (Rd : rate_ok d) by (apply HR; eapply nth_error_In; eauto). pose proof (Rep_number _ _ R' LN) as EN.
  unfold em_one in K. unfold st_count in K. rewrite EN in K.
  change (@nlt exact (@ndiv exact (of_int 1) (Fin d)) (of_int (Z.of_nat (length (l ++ [v])))))  with (xlt (xdiv (Fin (inject_Z 1)) (Fin d)) (Fin (inject_Z (Z.of_nat (length (l ++ [v])))))) in K.
  rewrite (warm_lt d _ Rd) in K. rewrite app_length in *. cbn [length] in *.
  destruct (Nat.leb_spec (length l) (warm_up d)) as [C|C]; [destruct (Nat.ltb_spec (warm_up d) (length l + 1)) as [C'|C']|]; cbn [fst snd] in K; destruct K as [K1 K2]; eexists; (split; [exact K1|]); (split; [rewrite K2; f_equal; lia|]).
  - rewrite ema_snoc by lia. now apply update_ok.
  - rewrite ema_warm by (rewrite app_length; cbn [length]; lia). apply Rep_mean; auto. + rewrite app_length. cbn [length]. lia. + destruct l; discriminate.
  - rewrite ema_snoc by lia. now apply update_ok.
Qed.

Theorem em_add_all_inv l : forall s rates l0, (forall d, In d rates -> rate_ok d) -> (Z.of_nat (length l0 + length l) < 2 ^ 64)%Z -> EInv s rates l0 ->
  exists s', em_add_all exact s (map Fin l) = Ok s' /\ EInv s' rates (l0 ++ l).
Proof.
  induction l as [|v l IH]; intros s rates l0 HR HL I.
  - exists s. rewrite app_nil_r. auto.
  - cbn [map em_add_all length] in *. destruct (em_add_inv s rates l0 v HR ltac:(lia) I) as (s1 & E1 & I1). rewrite E1. cbn [bind].
    destruct (IH s1 rates (l0 ++ [v]) HR) as (s2 & E2 & I2); auto. { rewrite app_length. cbn [length]. lia. } exists s2. rewrite <- app_assoc in I2. auto.
Qed.

(** ** Convexity *)
Lemma qsum_between lo hi l : (forall x, In x l -> lo <= x /\ x <= hi)%Q -> (qlen l * lo <= qsum l /\ qsum l <= qlen l * hi)%Q.
Proof.
  induction l as [|a l IH]; intros H. - rewrite qsum_nil. assert (Z0 : (qlen [] == 0)%Q) by reflexivity. rewrite Z0. lra.
  - assert (E : (qlen (a :: l) == qlen l + 1)%Q) by (unfold qlen; cbn [length]; rewrite Nat2Z.inj_succ; unfold Z.succ; rewrite inject_Z_plus; reflexivity).
    rewrite E, qsum_cons. specialize (IH (fun x Hx => H x (or_intror Hx))). specialize (H a (or_introl eq_refl)). lra.
Qed.
Lemma qmean_between lo hi l : l <> [] -> (forall x, In x l -> lo <= x /\ x <= hi)%Q -> (lo <= qmean l /\ qmean l <= hi)%Q.
Proof.
  intros N H. apply qsum_between in H. pose proof (qlen_pos l N). unfold qmean. split; [apply Qle_shift_div_l|apply Qle_shift_div_r]; lra.
Qed.
Lemma smooth_between d lo hi e v : rate_ok d -> (lo <= e <= hi)%Q -> (lo <= v <= hi)%Q -> (lo <= smooth d e v <= hi)%Q.
Proof.
  intros [H0 H1] [A B] [C D]. unfold smooth.
  assert (X1 : ((1 - d) * lo <= (1 - d) * e)%Q) by (rewrite !(Qmult_comm (1 - d)); apply Qmult_le_compat_r; lra).
  assert (X2 : ((1 - d) * e <= (1 - d) * hi)%Q) by (rewrite !(Qmult_comm (1 - d)); apply Qmult_le_compat_r; lra).
  assert (X3 : (d * lo <= d * v)%Q) by (rewrite !(Qmult_comm d); apply Qmult_le_compat_r; lra).
  assert (X4 : (d * v <= d * hi)%Q) by (rewrite !(Qmult_comm d); apply Qmult_le_compat_r; lra).
  assert (Y1 : ((1 - d) * lo + d * lo == lo)%Q) by ring. assert (Y2 : ((1 - d) * hi + d * hi == hi)%Q) by ring. lra.
Qed.
Lemma ema_between d lo hi l : rate_ok d -> l <> [] -> (forall x, In x l -> lo <= x /\ x <= hi)%Q -> (lo <= ema_of d l <= hi)%Q.
Proof.
  intros R. pose proof (warm_pos d R) as [W _]. induction l as [|v l IH] using rev_ind; [congruence|]. intros _ H.
  destruct (Nat.le_gt_cases (warm_up d) (length l)) as [C|C].
  - rewrite ema_snoc by lia. apply smooth_between; auto. + apply IH; [destruct l; cbn in C; [lia|discriminate]|]. intros x Hx. apply H, in_or_app. now left. + apply H, in_or_app. right. now left.
  - rewrite ema_warm by (rewrite app_length; cbn; lia). apply qmean_between; auto. destruct l; discriminate.
Qed.

(** ** minEMA and maxEMA *)
Lemma fold_min l : forall v, (exists q, v = Fin q) -> (forall x, In x l -> exists q, x = Fin q) ->
  let r := fold_left (fun ret x => if xlt x ret then x else ret) l v in In r (v :: l) /\ (forall x, In x (v :: l) -> xlt x r = false).
Proof.
  induction l as [|a l IH]; intros v (q & ->) H; cbv zeta in *; cbn [fold_left].
  - split; [now left|]. intros x [<-|[]]. apply xlt_fin_false. lra.
  - destruct (H a (or_introl eq_refl)) as (p & ->). set (w := if xlt (Fin p) (Fin q) then Fin p else Fin q).
    assert (W : exists u, w = Fin u /\ (u <= p /\ u <= q)%Q). { unfold w. destruct (xlt (Fin p) (Fin q)) eqn:E; [apply xlt_fin in E; exists p|apply xlt_fin_false in E; exists q]; split; auto; lra. }
    destruct W as (u & W & U1 & U2). destruct (IH w) as [I1 I2]; [eauto|intros x Hx; apply H; now right|]. split.
    + destruct I1 as [I1|I1]; [|right; right; exact I1]. rewrite <- I1. unfold w. destruct (xlt _ _); [right; now left|now left].
    + assert (F : exists z, fold_left (fun ret x => if xlt x ret then x else ret) l w = Fin z). { destruct I1 as [I1|I1]; [rewrite <- I1; eauto|]. destruct (H _ (or_intror I1)) as (z & Hz). eauto. }
      destruct F as (z & F). rewrite F in *. pose proof (I2 w (or_introl eq_refl)) as I3. rewrite W in I3. apply xlt_fin_false in I3.
      intros x [<-|[<-|Hx]]; [apply xlt_fin_false; lra|apply xlt_fin_false; lra|apply I2; now right].
Qed.
Lemma fold_max l : forall v, (exists q, v = Fin q) -> (forall x, In x l -> exists q, x = Fin q) ->
  let r := fold_left (fun ret x => if xlt ret x then x else ret) l v in In r (v :: l) /\ (forall x, In x (v :: l) -> xlt r x = false).
Proof.
  induction l as [|a l IH]; intros v (q & ->) H; cbv zeta in *; cbn [fold_left].
  - split; [now left|]. intros x [<-|[]]. apply xlt_fin_false. lra.
  - destruct (H a (or_introl eq_refl)) as (p & ->). set (w := if xlt (Fin q) (Fin p) then Fin p else Fin q).
    assert (W : exists u, w = Fin u /\ (p <= u /\ q <= u)%Q). { unfold w. destruct (xlt (Fin q) (Fin p)) eqn:E; [apply xlt_fin in E; exists p|apply xlt_fin_false in E; exists q]; split; auto; lra. }
    destruct W as (u & W & U1 & U2). destruct (IH w) as [I1 I2]; [eauto|intros x Hx; apply H; now right|]. split.
    + destruct I1 as [I1|I1]; [|right; right; exact I1]. rewrite <- I1. unfold w. destruct (xlt _ _); [right; now left|now left].
    + assert (F : exists z, fold_left (fun ret x => if xlt ret x then x else ret) l w = Fin z). { destruct I1 as [I1|I1]; [rewrite <- I1; eauto|]. destruct (H _ (or_intror I1)) as (z & Hz). eauto. }
      destruct F as (z & F). rewrite F in *. pose proof (I2 w (or_introl eq_refl)) as I3. rewrite W in I3. apply xlt_fin_false in I3.
      intros x [<-|[<-|Hx]]; [apply xlt_fin_false; lra|apply xlt_fin_false; lra|apply I2; now right].
Qed.
