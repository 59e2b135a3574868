(** C40: StatsSequence. *)
From Coq Require Import List Arith ZArith QArith Lqa Lia Bool ZifyBool ZifyNat.
From Verif Require Import Common CommonFacts Arith Stats_Spec Stats_Model Stats_Proofs Sequence_Model Sequence_Spec Sequence_Proofs.
Import ListNotations.
Local Open Scope nat_scope.

(** C40. After any history the object holds, for every complete block of
    points_per_bucket samples since the last reset and in order, the aggregate of
    that block; points_per_bucket is a power of two; at most max_retain values are
    held, and points_per_bucket is the least power of two for which that is possible;
    the samples of the last, incomplete block are aggregated apart, and the base
    statistics count every sample. Exact arithmetic. Partial: negative samples
    under MergeMax and more than max_retain * 2^30 samples are excluded, see the
    refutations below. *)
Theorem C40_sequence_partial : forall mr m s ops, sq_new exact mr m = Ok s -> legal mr m [] ops ->
  exists s', sq_run s ops = Ok s' /\
  exists k, getPointsPerBucket exact s' = (2 ^ Z.of_nat k)%Z /\
  maxSeqNum exact s' = length (samples ops) / 2 ^ k /\
  maxSeqNum exact s' <= mr /\
  length (samples ops) <= mr * 2 ^ k /\ (k = 0 \/ mr * 2 ^ (k - 1) < length (samples ops)) /\
  (forall i, i < maxSeqNum exact s' ->
     exists x, sq_get exact s' i = Ok x /\ is_agg (final_mode m ops) x (bucket (2 ^ k) (samples ops) i)) /\
  (forall i, maxSeqNum exact s' <= i -> sq_get exact s' i = Abort) /\
  (let rest := skipn (maxSeqNum exact s' * 2 ^ k) (samples ops) in
   points_remain s' = (2 ^ Z.of_nat k - Z.of_nat (length rest))%Z /\
   match final_mode m ops with
   | MergeMax => rest <> [] -> is_max (new_value s') rest
   | _ => fin_eq (new_value s') (qsum rest)
   end) /\
  ((Z.of_nat (length (samples ops)) < 2 ^ 64)%Z -> st_count exact (sq_stats s') = Z.of_nat (length (samples ops))).
Proof.
  intros mr m s ops E L. destruct (new_inv _ _ _ E) as (Hmr & Ev & I).
  destruct (run_inv ops s mr m [] [] [] 0 Hmr Ev L I) as (s' & b & r & k & E' & I' & R).
  { revert E. unfold sq_new. destruct (invariant _); try discriminate. cbn [bind]. destruct (invariant _); try discriminate. intros H. injection H as <-. apply Rep_new. }
  exists s'. split; auto. exists k. change (fold_left mode_step ops m) with (final_mode m ops) in I'. change (fold_left samples_step ops []) with (samples ops) in *.
  pose proof (blocks_count _ _ _ _ _ _ _ I') as C. pose proof I' as [Em Emd Ep El Hb Hvals Hr Hrem Hn Hz Hlen Hfull Hhalf].
  assert (LV : @length (num exact) (values s') = length b) by exact (Forall2_length' _ _ _ Hvals). unfold maxSeqNum, getPointsPerBucket.
  assert (ER : skipn (length (values s') * 2 ^ k) (samples ops) = r).
  { rewrite LV, El, <- (concat_length _ _ Hb). rewrite skipn_app, Nat.sub_diag, skipn_all. reflexivity. }
  split; [exact Ep|]. split; [now rewrite LV|]. split; [lia|].
  assert (LL : length (samples ops) = length b * 2 ^ k + length r) by (rewrite El, app_length, (concat_length _ _ Hb); lia).
  split; [|split; [|split; [|split; [|split]]]].
  - destruct (Nat.eq_dec (length b) mr) as [Eb|Nb]; [rewrite LL, (Hfull Eb), Eb; cbn [length]; lia|]. assert (S (length b) * 2 ^ k <= mr * 2 ^ k) by (apply Nat.mul_le_mono_r; lia). lia.
  - destruct Hhalf as [Hk|Hk]; [now left|]. destruct k as [|k]; [now left|]. right. cbn [Nat.sub]. rewrite Nat.sub_0_r. cbn [Nat.pow] in Hk. lia.
  - intros i Hi. unfold sq_get. replace (i <? length (values s')) with true by lia. cbn [invariant bind].
    destruct (get_lt (values s') i Hi) as (x & Ex & Gx). exists x. split; auto.
    destruct (Forall2_nth_l _ _ _ _ _ Hvals Ex) as (c & Ec & Ac). rewrite El, (bucket_nth (2 ^ k) b r i c); auto.
  - intros i Hi. unfold sq_get. replace (i <? length (values s')) with false by lia. reflexivity.
  - cbv zeta. rewrite ER. split; auto. destruct (final_mode m ops); cbn [part_ok] in Hn; auto. intros N. destruct Hn as [[? _]|[_ ?]]; [congruence|auto].
  - apply Rep_number. exact R.
Qed.
Print Assumptions C40_sequence_partial.

(** The hypotheses are met: 11 samples, 4 values kept, two halvings. *)
Example C40_ex : legal 4 MergeMean [] (SMode MergeMean :: map (fun z => SAdd (inject_Z z)) [3;1;4;1;5;9;2;6;5;3;5]%Z) /\
  exists s, sq_new exact 4 MergeMean = Ok s /\
  exists s', sq_run s (SMode MergeMean :: map (fun z => SAdd (inject_Z z)) [3;1;4;1;5;9;2;6;5;3;5]%Z) = Ok s' /\ getPointsPerBucket exact s' = 4%Z /\ maxSeqNum exact s' = 2 /\
  exists x, sq_get exact s' 1 = Ok x /\ fin_eq x (22 # 4).
Proof.
  split; [cbn; repeat split; try discriminate; lia|].
  let r := eval vm_compute in (sq_new exact 4 MergeMean) in match r with Ok ?x => exists x end. split; [vm_compute; reflexivity|].
  match goal with |- exists s', ?run = _ /\ _ => let r := eval vm_compute in run in match r with Ok ?x => exists x end end. split; [vm_compute; reflexivity|].
  split; [reflexivity|]. split; [reflexivity|]. eexists. split; [reflexivity|]. eexists. split; [reflexivity|]. reflexivity.
Qed.

(** Under MergeMax a bucket of negative samples yields 0. *)
Theorem C40_max_negative_refuted : exists s s', sq_new exact 2 MergeMax = Ok s /\ sq_run s [SAdd (-1)] = Ok s' /\
  exists x, sq_get exact s' 0 = Ok x /\ ~ is_agg MergeMax x (bucket 1 (samples [SAdd (-1)]) 0).
Proof.
  eexists. eexists. split; [reflexivity|]. split; [reflexivity|]. eexists. split; [reflexivity|]. cbn. intros [[H _]|(q & H & [I|[]] & _)]; [discriminate|]. subst q. discriminate.
Qed.
Print Assumptions C40_max_negative_refuted.

(** The object takes max_retain * 2^30 samples; one more makes the int
    points_per_bucket overflow. *)
Theorem C40_overflow_refuted : forall mr m s ops, sq_new exact mr m = Ok s -> legal mr m [] ops ->
  Z.of_nat (length (samples ops)) = (Z.of_nat mr * 2 ^ 30)%Z -> forall v,
  exists s', sq_run s ops = Ok s' /\ sq_run s' [SAdd v] = UB.
Proof.
  intros mr m s ops E L N v. destruct (new_inv _ _ _ E) as (Hmr & Ev & I).
  destruct (run_inv ops s mr m [] [] [] 0 Hmr Ev L I) as (s' & b & r & k & E' & I' & R).
  { revert E. unfold sq_new. destruct (invariant _); try discriminate. cbn [bind]. destruct (invariant _); try discriminate. intros H. injection H as <-. apply Rep_new. }
  exists s'. split; auto. clear I E E'. change (fold_left samples_step ops []) with (samples ops) in *. pose proof I' as [Em Emd Ep El Hb Hvals Hr Hrem Hn Hz Hlen Hfull Hhalf].
  assert (LL : length (samples ops) = length b * 2 ^ k + length r) by (rewrite El, app_length, (concat_length _ _ Hb); lia). pose proof (pow2Z k) as PZ. pose proof (pow2_pos k) as PP.
  assert (K1 : k <= 30). { destruct Hhalf as [Hh|Hh]; [lia|]. assert (2 ^ Z.of_nat k < 2 ^ 31)%Z as H by (change (2 ^ 31)%Z with (2 * 2 ^ 30)%Z; nia). apply Z.pow_lt_mono_r_iff in H; lia. }
  assert (LE : length (samples ops) <= mr * 2 ^ k).
  { destruct (Nat.eq_dec (length b) mr) as [Eb|Nb]; [rewrite LL, (Hfull Eb), Eb; cbn [length]; lia|]. assert (S (length b) * 2 ^ k <= mr * 2 ^ k) by (apply Nat.mul_le_mono_r; lia). lia. }
  assert (K2 : 30 <= k). { assert (2 ^ 30 <= 2 ^ Z.of_nat k)%Z as H by nia. apply Z.pow_le_mono_r_iff in H; lia. }
  assert (k = 30) by lia. subst k. change (Z.of_nat 30) with 30%Z in *. clear K1 K2 LE.
  assert (Lb : length b = mr) by nia. specialize (Hfull Lb). subst r.
  cbn [sq_run sq_step]. unfold sq_add. assert (LV : @length (num exact) (values s') = length b) by exact (Forall2_length' _ _ _ Hvals). replace (length (values s') =? max_retain s') with true by lia.
  rewrite (Hz eq_refl). replace (points_remain s' =? points_per_bucket s')%Z with true by (rewrite Ep, Hrem; reflexivity). replace (neq (Fin (inject_Z 0) : exact) (of_int 0)) with true by reflexivity. cbn [andb invariant bind].
  destruct (halve_all exact (merge_mode s') (values s') (max_retain s' / 2)) as (v' & Eh & Fv). { rewrite Em, LV, Lb. pose proof (Nat.div_mod mr 2). lia. }
  rewrite Eh. cbn [bind]. rewrite Ep. reflexivity.
Qed.
Print Assumptions C40_overflow_refuted.

(** The hypotheses are met: 2^31 samples of 1. *)
Lemma legal_repeat mr n : forall l, (Z.of_nat (length l + n) <= Z.of_nat mr * 2 ^ 30)%Z -> legal mr MergeSum l (repeat (SAdd 1) n).
Proof.
  induction n as [|n IH]; intros l H; cbn [repeat legal]; [split; [lia|exact I]|]. split; [lia|]. split; [discriminate|]. cbn [mode_step samples_step]. apply IH. rewrite app_length. cbn [length]. lia.
Qed.
Lemma samples_repeat n : forall l, length (fold_left samples_step (repeat (SAdd 1) n) l) = length l + n.
Proof. induction n as [|n IH]; intros l; cbn [repeat fold_left samples_step]; [lia|]. rewrite IH, app_length. cbn [length]. lia. Qed.
Example C40_overflow_ex : exists ops, legal 2 MergeSum [] ops /\ Z.of_nat (length (samples ops)) = (Z.of_nat 2 * 2 ^ 30)%Z.
Proof.
  exists (repeat (SAdd 1) (Z.to_nat (2 ^ 31))). assert (H : Z.of_nat (Z.to_nat (2 ^ 31)) = (2 ^ 31)%Z) by (apply Z2Nat.id; lia). revert H. generalize (Z.to_nat (2 ^ 31)). intros n H. split.
  - apply legal_repeat. cbn [length]. lia.
  - unfold samples. rewrite samples_repeat. cbn [length]. lia.
Qed.
