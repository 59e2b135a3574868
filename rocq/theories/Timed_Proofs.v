(** Proofs about the timed waits. *)
From Coq Require Import List ZArith Bool Reals Lra Lia Psatz ZifyBool.
From Flocq Require Import Core BinarySingleNaN.
From Verif Require Import Common Double64 Clock_Model Clock_Proofs Timed_Model Timed_Spec.
Import ListNotations.
Local Open Scope Z_scope.

(** The nanoseconds added for a fraction of a second. *)
Definition part_of (f : R) : Z := Zfloor (rnd (IZR (10 ^ 9) * f) + / 2)%R.
Lemma part_range f : (0 <= f <= 1)%R -> 0 <= part_of f <= 10 ^ 9.
Proof.
  intros H. unfold part_of. assert (A : (0 <= rnd (IZR (10 ^ 9) * f))%R) by (rewrite <- rnd_0; apply rnd_le; assert (0 < IZR (10 ^ 9))%R by (apply IZR_lt; lia); nra).
  assert (B : (rnd (IZR (10 ^ 9) * f) <= IZR (10 ^ 9))%R) by (rewrite <- (rnd_Z (10 ^ 9)) at 2 by lia; apply rnd_le; assert (0 < IZR (10 ^ 9))%R by (apply IZR_lt; lia); nra).
  split; [apply Zfloor_lub; lra|]. apply Z.lt_succ_r, lt_IZR. eapply Rle_lt_trans; [apply Zfloor_lb|]. rewrite succ_IZR. lra.
Qed.
Lemma part_mono f g : (f <= g)%R -> part_of f <= part_of g.
Proof. intros H. apply Zfloor_le. apply Rplus_le_compat_r, rnd_le. assert (0 < IZR (10 ^ 9))%R by (apply IZR_lt; lia). nra. Qed.
Lemma part_close f : (0 <= f <= 1)%R -> (Rabs (IZR (part_of f) - IZR (10 ^ 9) * f) <= / 2 + bpow radix2 (-23))%R.
Proof.
  intros H. unfold part_of. set (x := (IZR (10 ^ 9) * f)%R). assert (X : (0 <= x <= IZR (10 ^ 9))%R) by (unfold x; assert (0 < IZR (10 ^ 9))%R by (apply IZR_lt; lia); nra).
  assert (E : (Rabs (rnd x - x) <= bpow radix2 (30 - 53))%R).
  { apply rnd_error; [lia|]. rewrite Rabs_pos_eq by lra. eapply Rle_trans; [apply X|]. change (bpow radix2 30) with (IZR (2 ^ 30)). apply IZR_le. lia. }
  change (30 - 53) with (-23) in E. pose proof (Zfloor_lb (rnd x + / 2)%R) as L. pose proof (Zfloor_ub (rnd x + / 2)%R) as U. apply Rabs_le_inv in E. apply Rabs_le. lra.
Qed.
Definition dur (x : R) : Z := Zfloor x * 10 ^ 9 + part_of (x - IZR (Zfloor x)).
Lemma dur_close x : (Rabs (IZR (dur x) - IZR (10 ^ 9) * x) <= / 2 + bpow radix2 (-23))%R.
Proof.
  unfold dur. pose proof (floor_frac x) as Q. pose proof (part_close (x - IZR (Zfloor x)) ltac:(lra)) as C. rewrite plus_IZR, mult_IZR.
  match goal with |- (Rabs ?a <= _)%R => match type of C with (Rabs ?b <= _)%R => replace a with b by ring end end. exact C.
Qed.
Lemma dur_mono x y : (x <= y)%R -> dur x <= dur y.
Proof.
  intros H. unfold dur. pose proof (floor_frac x) as Qx. pose proof (floor_frac y) as Qy. assert (F : Zfloor x <= Zfloor y) by now apply Zfloor_le.
  pose proof (part_range (x - IZR (Zfloor x)) ltac:(lra)). pose proof (part_range (y - IZR (Zfloor y)) ltac:(lra)).
  destruct (Z.eq_dec (Zfloor x) (Zfloor y)) as [E|E]; [|lia]. rewrite E in *. assert (part_of (x - IZR (Zfloor y)) <= part_of (y - IZR (Zfloor y))) by (apply part_mono; lra). lia.
Qed.
Lemma dur_Z k : dur (IZR k) = k * 10 ^ 9.
Proof.
  unfold dur. rewrite Zfloor_IZR. replace (IZR k - IZR k)%R with 0%R by ring. unfold part_of. rewrite Rmult_0_r, rnd_0. replace (Zfloor (0 + / 2)%R) with 0; [lia|]. symmetry. apply Zfloor_imp. cbn. lra.
Qed.

Lemma abstime_exact now (x : double) : normal now -> 0 <= fst now -> is_finite x = true -> (0 <= B2R x)%R -> (IZR (fst now) + B2R x < IZR (2 ^ 53))%R ->
  exists t, timedWait_abstime now x = Ok t /\ normal t /\ nanos t = nanos now + dur (B2R x).
Proof.
  destruct now as [sec nsec]. unfold normal, nanos. cbn [fst snd]. intros Hn Hs F P B.
  assert (S0 : (0 <= IZR sec)%R) by now apply IZR_le. assert (B53 : (B2R x <= IZR (2 ^ 53))%R) by lra.
  unfold timedWait_abstime. destruct (of_Z_exact 0) as (E0 & F0); [lia|]. rewrite bleb_R by auto. rewrite E0, Rle_bool_true by exact P. cbn [invariant bind].
  destruct (floor_spec 63 x F) as (A & Ar); [split; [exact P|]; eapply Rle_lt_trans; [exact B53|]; apply IZR_lt; lia|exact B53|]. rewrite A. cbn [bind].
  assert (W : sec + Zfloor (B2R x) < 2 ^ 53) by (apply lt_IZR; rewrite plus_IZR; pose proof (Zfloor_lb (B2R x)); lra).
  replace (2 ^ 63 <=? sec + Zfloor (B2R x)) with false by lia.
  destruct (sub_floor x F) as (E1 & F1); [lra|]. pose proof (floor_frac (B2R x)) as Q. set (f := (B2R x - IZR (Zfloor (B2R x)))%R) in *.
  destruct (of_Z_exact (10 ^ 9)) as (E9 & F9); [lia|]. assert (P9 : (0 < IZR (10 ^ 9) <= IZR (2 ^ 30))%R) by (split; [apply IZR_lt|apply IZR_le]; lia).
  destruct (dmul_spec (of_Z (10 ^ 9)) (dsub x (of_Z (Zfloor (B2R x)))) 30 F9 F1) as (E & Fm); [lia| |].
  { rewrite E9, E1. rewrite Rabs_pos_eq by nra. change (bpow radix2 30) with (IZR (2 ^ 30)). nra. }
  rewrite E9, E1 in E. pose proof (part_range f ltac:(lra)) as PR.
  assert (RB : (0 <= rnd (IZR (10 ^ 9) * f) <= IZR (2 ^ 53))%R).
  { split; [rewrite <- rnd_0; apply rnd_le; nra|]. rewrite <- (rnd_Z (2 ^ 53)) by lia. apply rnd_le. assert (IZR (2 ^ 30) <= IZR (2 ^ 53))%R by (apply IZR_le; lia). nra. }
  rewrite round_spec; [|exact Fm|rewrite E; exact RB]. rewrite E. fold (part_of f). replace (part_of f <? 2 ^ 63) with true by lia. cbn [bind].
  unfold dur. fold f. destruct (1000 * 1000 * 1000 <=? nsec + part_of f) eqn:C.
  - replace (2 ^ 63 <=? sec + Zfloor (B2R x) + 1) with false by lia. replace (nsec + part_of f - 1000 * 1000 * 1000 <? 1000 * 1000 * 1000) with true by lia. cbn [invariant bind].
    eexists. split; [reflexivity|]. cbn [fst snd]. lia.
  - eexists. split; [reflexivity|]. cbn [fst snd]. lia.
Qed.
Lemma abstime_negative now (x : double) : is_finite x = true -> (B2R x < 0)%R -> timedWait_abstime now x = Abort.
Proof.
  intros F H. destruct now as [sec nsec]. unfold timedWait_abstime. destruct (of_Z_exact 0) as (E0 & F0); [lia|]. rewrite bleb_R by auto. rewrite E0, Rle_bool_false by exact H. reflexivity.
Qed.

Lemma later_nanos a b : normal a -> normal b -> (fst a <? fst b) || ((fst b =? fst a) && (snd a <=? snd b)) = (nanos a <=? nanos b).
Proof. unfold normal, nanos. intros A B. destruct (nanos a <=? nanos b) eqn:E; unfold nanos in E; lia. Qed.
Lemma timedlock_run abs world ret sleeps : normal abs -> Forall (fun e => normal (snd e)) world -> mutex_timedlock abs world = Ok (ret, sleeps) ->
  exists before r now after, world = before ++ (r, now) :: after /\ length sleeps = length before /\
    Forall (fun e => fst e = EBUSY /\ nanos (snd e) < nanos abs) before /\
    Forall2 (fun e d => 0 <= d <= 10 ^ 7 /\ nanos (snd e) + d <= nanos abs) before sleeps /\
    (r = EBUSY /\ nanos abs <= nanos now /\ ret = ETIMEDOUT \/ r <> EBUSY /\ ret = r).
Proof.
  intros Ha. revert ret sleeps. induction world as [|[r now] world IH]; intros ret sleeps W E; cbn [mutex_timedlock] in E; [discriminate|].
  inversion W as [|? ? Wn W']; subst. cbn [snd] in Wn. destruct (r =? EBUSY) eqn:Er.
  - rewrite later_nanos in E by assumption. destruct (nanos abs <=? nanos now) eqn:L.
    + injection E as <- <-. exists [], r, now, world. split; [reflexivity|]. split; [reflexivity|]. split; [constructor|]. split; [constructor|]. left. lia.
    + destruct (mutex_timedlock abs world) as [[ret' sl']| | |] eqn:E'; cbn [bind] in E; try discriminate. injection E as <- <-.
      destruct (IH _ _ W' eq_refl) as (before & r' & now' & after & -> & Ln & Fb & F2 & D). exists ((r, now) :: before), r', now', after.
      split; [reflexivity|]. split; [cbn [length]; lia|]. split; [constructor; [cbn [fst snd]; lia|exact Fb]|]. split; [|exact D]. constructor; [|exact F2]. cbn [snd]. unfold normal, nanos in *. destruct (snd abs - snd now <? 0) eqn:S1; repeat match goal with |- context [if ?b then _ else _] => destruct b eqn:? end; lia.
  - injection E as <- <-. exists [], r, now, world. split; [reflexivity|]. split; [reflexivity|]. split; [constructor|]. split; [constructor|]. right. lia.
Qed.
