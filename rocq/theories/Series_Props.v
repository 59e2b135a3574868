(** C41: StatsSeries. *)
From Coq Require Import List Arith ZArith QArith Lqa Lia Bool ZifyBool ZifyNat.
From Verif Require Import Common CommonFacts Arith Stats_Spec Stats_Model Stats_Proofs Series_Model Series_Spec Series_Proofs.
Import ListNotations.
Local Open Scope nat_scope.

Lemma run_new ml s ops : se_new exact ml = Ok s -> (Z.of_nat (adds ops) < 2 ^ 32)%Z ->
  exists s', se_run exact s (map to_op ops) = Ok s' /\ SeInv s' ml (held ops) /\ (Z.of_nat (length (held ops)) < 2 ^ 32)%Z.
Proof.
  unfold se_new. destruct (invariant _); try discriminate. cbn [bind]. intros E HA. injection E as <-.
  destruct (se_run_inv ops _ ml [] (reset_inv (mkSeries (st_new exact) ml [] [] [] 0) ml eq_refl)) as (s' & E' & I'); [exact HA|]. exists s'. split; [exact E'|]. split; [exact I'|].
  assert (G : forall l, length (fold_left held_step ops l) <= length l + adds ops).
  { clear. induction ops as [|o ops IH]; intros l; cbn [fold_left]; [unfold adds; cbn; lia|]. destruct o as [v|]; cbn [held_step]; unfold adds in *; cbn [filter length] in *.
    - etransitivity; [apply IH|]. rewrite app_length. cbn [length]. lia. - etransitivity; [apply IH|]. cbn [length]. lia. }
  specialize (G []). unfold held. cbn [length] in G. lia.
Qed.

(** Whatever the history of samples and resets, autocovariance(lag) is the textbook
    estimator over the samples since the last reset, for every lag the object was
    made for and shorter than the number of samples; a larger lag than the object
    was made for stops the program. Exact arithmetic, fewer than 2^32 additions.
    Partial: no samples at all, or no more than the lag, see C41_short_refuted. *)
Theorem C41_autocovariance_partial : forall ml s ops, se_new exact ml = Ok s -> (Z.of_nat (adds ops) < 2 ^ 32)%Z ->
  exists s', se_run exact s (map to_op ops) = Ok s' /\
  (forall lag, lag <= ml -> lag < length (held ops) -> exists x, autocovariance exact s' lag = Ok x /\ fin_eq x (acov (held ops) lag)) /\
  (forall lag, ml < lag -> autocovariance exact s' lag = Abort).
Proof.
  intros ml s ops E HA. destruct (run_new ml s ops E HA) as (s' & E' & I & L). exists s'. split; [exact E'|]. split.
  - intros lag H1 H2. now apply (autocovariance_ok s' ml).
  - intros lag H. unfold autocovariance. rewrite (v_ml _ _ _ I). replace (lag <=? ml) with false by lia. reflexivity.
Qed.
Print Assumptions C41_autocovariance_partial.

(** At lag 0 it is the variance of the samples; at every lag it is no larger in
    magnitude, so the autocorrelation lies between -1 and 1. *)
Theorem C41_autocorrelation : forall ml s ops, se_new exact ml = Ok s -> (Z.of_nat (adds ops) < 2 ^ 32)%Z -> ~ (qvar (held ops) == 0)%Q ->
  exists s', se_run exact s (map to_op ops) = Ok s' /\
  (exists v, autocovariance exact s' 0 = Ok v /\ fin_eq v (qvar (held ops))) /\
  (forall lag, lag <= ml -> lag < length (held ops) ->
     exists x, autocorrelation exact s' lag = Ok (Fin x) /\ (x == acov (held ops) lag / qvar (held ops))%Q /\ (- 1 <= x /\ x <= 1)%Q).
Proof.
  intros ml s ops E HA NV. destruct (run_new ml s ops E HA) as (s' & E' & I & L). exists s'. split; [exact E'|].
  assert (N : held ops <> []) by (intros F; apply NV; rewrite F; reflexivity). assert (LN : 0 < length (held ops)) by (destruct (held ops); [congruence|cbn; lia]).
  destruct (autocovariance_ok s' ml (held ops) 0 I L ltac:(lia) LN) as (y & Ey & (v & -> & Ev)). pose proof (acov_0 (held ops)) as A0. split.
  - exists (Fin v). split; [exact Ey|]. exists v. split; [reflexivity|]. now rewrite Ev.
  - intros lag H1 H2. destruct (autocovariance_ok s' ml (held ops) lag I L H1 H2) as (x & Ex & (p & -> & Ep)). unfold autocorrelation. rewrite Ex, Ey. cbn [bind].
    assert (Nv : ~ (v == 0)%Q) by (rewrite Ev, A0; exact NV). change (@ndiv exact (Fin p) (Fin v)) with (xdiv (Fin p) (Fin v)). cbn [xdiv]. replace (Qeq_bool v 0) with false by (symmetry; now apply Qeq_bool_false).
    exists (p / v)%Q. split; [reflexivity|]. split; [rewrite Ep, Ev, A0; reflexivity|].
    pose proof (acov_bound (held ops) lag H2) as [B1 B2]. rewrite <- Ep, <- Ev in B1, B2. assert (P : (0 < v)%Q) by (destruct (Qlt_le_dec 0 v); [assumption|exfalso; apply Nv; lra]).
    split; [apply Qle_shift_div_l; [exact P|lra]|apply Qle_shift_div_r; [exact P|lra]].
Qed.
Print Assumptions C41_autocorrelation.

(** The hypotheses are met: two samples, a reset, then 4 1 7 2 at lags 0, 1, 2. *)
Example C41_ex : exists s s', se_new exact 2 = Ok s /\ se_run exact s (map to_op [QAdd 9; QAdd 8; QReset; QAdd 4; QAdd 1; QAdd 7; QAdd 2]) = Ok s' /\
  held [QAdd 9; QAdd 8; QReset; QAdd 4; QAdd 1; QAdd 7; QAdd 2] = [4; 1; 7; 2]%Q /\ ~ (qvar [4; 1; 7; 2] == 0)%Q /\
  exists x, autocovariance exact s' 1 = Ok (Fin x) /\ (x == - (61 # 16))%Q.
Proof.
  let r := eval vm_compute in (se_new exact 2) in match r with Ok ?x => exists x end.
  match goal with |- exists s', _ /\ ?run = _ /\ _ => let r := eval vm_compute in run in match r with Ok ?x => exists x end end.
  split; [vm_compute; reflexivity|]. split; [vm_compute; reflexivity|]. split; [reflexivity|]. split; [vm_compute; discriminate|].
  match goal with |- exists x, ?c = _ /\ _ => let r := eval vm_compute in c in match r with Ok (Fin ?x) => exists x end end. split; [vm_compute; reflexivity|reflexivity].
Qed.

(** With no more samples than the lag, the unsigned sampleno - lag - 1 wraps: one
    sample of 3 has autocovariance 9 * 2^32 at lag 1, where the estimator is 0. *)
Theorem C41_short_refuted : exists s s', se_new exact 1 = Ok s /\ se_run exact s (map to_op [QAdd 3]) = Ok s' /\
  (exists x, autocovariance exact s' 1 = Ok (Fin x) /\ (x == 9 * inject_Z (2 ^ 32))%Q) /\ (acov [3%Q] 1 == 0)%Q.
Proof.
  let r := eval vm_compute in (se_new exact 1) in match r with Ok ?x => exists x end.
  match goal with |- exists s', _ /\ ?run = _ /\ _ => let r := eval vm_compute in run in match r with Ok ?x => exists x end end.
  split; [vm_compute; reflexivity|]. split; [vm_compute; reflexivity|]. split; [|reflexivity].
  match goal with |- exists x, ?c = _ /\ _ => let r := eval vm_compute in c in match r with Ok (Fin ?x) => exists x end end. split; [vm_compute; reflexivity|vm_compute; reflexivity].
Qed.
Print Assumptions C41_short_refuted.
