(** C43: StatsEMA. *)
From Coq Require Import List Arith ZArith QArith Lqa Lia Bool ZifyBool ZifyNat.
From Verif Require Import Common CommonFacts Arith Double64 Stats_Spec Stats_Model Stats_Proofs EMA_Model EMA_Spec EMA_Proofs.
Import ListNotations.
Local Open Scope nat_scope.

(** The constructor takes exactly the non-empty lists of rates strictly between 0
    and 1; anything else stops the program. *)
Theorem C43_constructor : forall rates : list Q,
  (rates <> [] /\ (forall d, In d rates -> 0 < d /\ d < 1)%Q -> exists s, em_new exact (map Fin rates) = Ok s) /\
  (rates = [] \/ (exists d, In d rates /\ (d <= 0 \/ 1 <= d)%Q) -> em_new exact (map Fin rates) = Abort).
Proof.
  intros rates. split.
  - intros [N H]. unfold em_new. rewrite map_length. replace (0 <? length rates) with true by (destruct rates; [congruence|reflexivity]). cbn [invariant bind].
    match goal with |- context [invariant ?c] => replace c with true end. { cbn. eauto. }
    symmetry. apply forallb_forall. intros x Hx. apply in_map_iff in Hx. destruct Hx as (d & <- & Hd). specialize (H d Hd). apply andb_true_intro. split; apply xlt_fin; [exact (proj1 H)|exact (proj2 H)].
  - intros [->|(d & Hd & H)]; [reflexivity|]. unfold em_new. rewrite map_length. destruct rates as [|r rates]; [reflexivity|]. change (0 <? length (r :: rates)) with true. cbn [invariant bind].
    match goal with |- context [invariant ?c] => replace c with false end. { reflexivity. }
    symmetry. apply not_true_iff_false. intros F. rewrite forallb_forall in F. specialize (F (Fin d) (in_map Fin _ _ Hd)). apply andb_prop in F. destruct F as [A B]. apply xlt_fin in A, B.
    change (inject_Z 0) with 0%Q in A. change (inject_Z 1) with 1%Q in B. destruct H; lra.
Qed.
Print Assumptions C43_constructor.

(** After any samples, the i-th average is the exponential moving average with the
    i-th rate, started from the mean of the first floor(1/rate) samples; it is the
    mean of all samples while count * rate <= 1, and never leaves the range of the
    samples. Exact arithmetic; see C43_double_refuted. *)
Theorem C43_ema_partial : forall rates s l, em_new exact (map Fin rates) = Ok s -> (Z.of_nat (length l) < 2 ^ 64)%Z ->
  exists s', em_add_all exact s (map Fin l) = Ok s' /\
  (forall i d, nth_error rates i = Some d -> exists e, getEMA exact s' i = Ok (Fin e) /\
     (e == ema_of d l)%Q /\
     ((inject_Z (Z.of_nat (length l)) * d <= 1)%Q -> (e == qmean l)%Q) /\
     (forall lo hi, l <> [] -> (forall x, In x l -> lo <= x /\ x <= hi)%Q -> (lo <= e /\ e <= hi)%Q)) /\
  (forall i, length rates <= i -> getEMA exact s' i = Abort).
Proof.
  intros rates s l E HL. destruct (em_new_spec _ _ E) as (N & HR & I). destruct (em_add_all_inv l s rates [] HR HL I) as (s' & E' & (R & Ed & L1 & L2 & H)). cbn [app] in *.
  assert (L1' : @length (num exact) (ema_values s') = length rates) by exact L1.
  exists s'. split; [exact E'|]. split.
  - intros i d Hi. destruct (H i d Hi) as (x & E1 & E2 & (e & -> & Ee)). exists e. pose proof (nth_error_lt _ _ _ Hi) as Li. assert (Rd : rate_ok d) by (apply HR; eapply nth_error_In; eauto).
    split; [|split; [exact Ee|split]].
    + unfold getEMA. replace (i <? length (ema_values s')) with true by lia. cbn [invariant bind]. now apply get_Some.
    + intros C. rewrite Ee, ema_warm; [reflexivity|]. destruct (Nat.le_gt_cases (length l) (warm_up d)) as [?|G]; auto. exfalso.
      pose proof (warm_lt d (length l) Rd) as W. replace (warm_up d <? length l) with true in W by lia. destruct Rd as [H0 H1]. cbn [xdiv] in W.
      replace (Qeq_bool d 0) with false in W by (symmetry; apply Qeq_bool_false; lra). apply xlt_fin in W. change (inject_Z 1) with 1%Q in W.
      assert (X : (1 / d * d < inject_Z (Z.of_nat (length l)) * d)%Q) by (apply Qmult_lt_compat_r; lra). assert (Y : (1 / d * d == 1)%Q) by (field; lra). lra.
    + intros lo hi Nl B. rewrite Ee. apply ema_between; auto.
  - intros i Hi. unfold getEMA. replace (i <? length (ema_values s')) with false by lia. reflexivity.
Qed.
Print Assumptions C43_ema_partial.

(** minEMA and maxEMA are the least and the greatest of the averages. *)
Theorem C43_min_max : forall rates s l, em_new exact (map Fin rates) = Ok s -> (Z.of_nat (length l) < 2 ^ 64)%Z ->
  exists s' lo hi i j, em_add_all exact s (map Fin l) = Ok s' /\
  minEMA exact s' = Ok (Fin lo) /\ maxEMA exact s' = Ok (Fin hi) /\
  getEMA exact s' i = Ok (Fin lo) /\ getEMA exact s' j = Ok (Fin hi) /\
  (forall k e, getEMA exact s' k = Ok (Fin e) -> (lo <= e /\ e <= hi)%Q).
Proof.
  intros rates s l E HL. destruct (em_new_spec _ _ E) as (N & HR & I). destruct (em_add_all_inv l s rates [] HR HL I) as (s' & E' & (R & Ed & L1 & L2 & H)). cbn [app] in *.
  exists s'. assert (FV : forall x, In x (ema_values s') -> exists q, x = Fin q).
  { intros x Hx. apply In_nth_error in Hx. destruct Hx as (i & Hi). pose proof (nth_error_lt _ _ _ Hi) as Li.
    destruct (nth_error rates i) as [d|] eqn:Er. - destruct (H i d Er) as (e & E1 & _ & (q & -> & _)). exists q. congruence. - apply nth_error_None in Er. exfalso. assert (L1' : @length (num exact) (ema_values s') = length rates) by exact L1. lia. }
  assert (G : forall k (x : exact), getEMA exact s' k = Ok x <-> nth_error (ema_values s') k = Some x).
  { intros k x. unfold getEMA, get. destruct (Nat.ltb_spec k (length (ema_values s'))) as [C|C]; cbn [invariant bind].
    - destruct (nth_error (ema_values s') k); split; intros X; [injection X as ->; reflexivity|injection X as ->; reflexivity|discriminate|discriminate].
    - split; [discriminate|]. intros X. apply nth_error_lt in X. lia. }
  unfold minEMA, maxEMA. destruct (ema_values s') as [|v vs] eqn:Ev. { cbn in L1. destruct rates; [congruence|discriminate]. }
  change (get (v :: vs) 0) with (Ok v). cbn [bind tl].
  destruct (FV v (or_introl eq_refl)) as (q & Hv).
  pose proof (fold_min vs v (ex_intro _ q Hv) (fun x Hx => FV x (or_intror Hx))) as [M1 M2]. pose proof (fold_max vs v (ex_intro _ q Hv) (fun x Hx => FV x (or_intror Hx))) as [X1 X2].
  destruct (FV _ M1) as (lo & Elo). destruct (FV _ X1) as (hi & Ehi). rewrite Elo in *. rewrite Ehi in *.
  apply In_nth_error in M1, X1. destruct M1 as (i & M1), X1 as (j & X1). exists lo, hi, i, j.
  split; [exact E'|]. split; [f_equal; exact Elo|]. split; [f_equal; exact Ehi|]. split; [apply G; exact M1|]. split; [apply G; exact X1|].
  intros k e Hk. apply G in Hk. apply nth_error_In in Hk. split; apply xlt_fin_false; [apply M2|apply X2]; exact Hk.
Qed.
Print Assumptions C43_min_max.

(** The hypotheses are met: two rates, five samples, one average past its warm-up. *)
Example C43_ex : exists s s', em_new exact (map Fin [1 # 2; 1 # 10]%Q) = Ok s /\ em_add_all exact s (map Fin [4; 8; 0; 2; 6]%Q) = Ok s' /\
  (exists e, getEMA exact s' 0 = Ok (Fin e) /\ (e == 17 # 4)%Q) /\ (exists e, getEMA exact s' 1 = Ok (Fin e) /\ (e == 4)%Q).
Proof.
  let r := eval vm_compute in (em_new exact (map Fin [1 # 2; 1 # 10]%Q)) in match r with Ok ?x => exists x end.
  match goal with |- exists s', _ /\ ?run = _ /\ _ => let r := eval vm_compute in run in match r with Ok ?x => exists x end end.
  split; [vm_compute; reflexivity|]. split; [vm_compute; reflexivity|]. split; eexists; (split; [reflexivity|]); reflexivity.
Qed.

(** With doubles the range is left by rounding: eleven samples of 13 at rate 0.1
    give an average above 13, so above the maximum of the samples. *)
Theorem C43_double_refuted : let d := ddiv (of_Z 1) (of_Z 10) in
  match em_new ieee [d] with
  | Ok s => match em_add_all ieee s (repeat (of_Z 13) 11) with
            | Ok s' => match getEMA ieee s' 0 with Ok e => nlt (a := ieee) (of_Z 13) e | _ => false end
            | _ => false end
  | _ => false end = true.
Proof. vm_compute. reflexivity. Qed.
Print Assumptions C43_double_refuted.
