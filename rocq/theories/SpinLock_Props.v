(** C48: spin locks give mutual exclusion. *)
From Coq Require Import List ZArith Bool Lia ZifyBool ZifyNat.
From Verif Require Import SpinLock_Model SpinLock_Spec SpinLock_Proofs.
Import ListNotations.
Local Open Scope Z_scope.

(** GlibcPosixSpinLock and SpinLockYield: at most 2^31 threads, every schedule, on x86-TSO. *)
Theorem C48_glibc_and_yield_locks : forall k n sched, k = Glibc \/ k = Yield ->
  Z.of_nat n <= 2 ^ 31 -> Forall (fun c => (who c < n)%nat) sched ->
  let s := run k init sched in
  mutual_exclusion s /\ sees_all_increments s /\ no_increment_lost s.
Proof.
  intros k n sched K N F s. apply (Inv_mutex k n (0 + Z.of_nat (length sched))). apply run_inv; auto; [apply Inv_init|].
  intros E. destruct K; congruence.
Qed.
Print Assumptions C48_glibc_and_yield_locks.

(** AtomicSpinLock: only for schedules shorter than 2^31 steps; see the next theorem. *)
Theorem C48_atomic_spin_lock_partial : forall n sched,
  Z.of_nat n <= 2 ^ 31 -> Z.of_nat (length sched) < 2 ^ 31 -> Forall (fun c => (who c < n)%nat) sched ->
  let s := run AtomicSpin init sched in
  mutual_exclusion s /\ sees_all_increments s /\ no_increment_lost s.
Proof.
  intros n sched N L F s. apply (Inv_mutex AtomicSpin n (0 + Z.of_nat (length sched))). apply run_inv; auto; [apply Inv_init|]. intros _. lia.
Qed.
Print Assumptions C48_atomic_spin_lock_partial.

(** AtomicSpinLock decrements on every turn of its loop: while thread 0 is inside, thread 1
    spins 2^32 times, the counter comes round to 0 and thread 1 gets in as well. *)
Lemma int32_dec : forall a, int32 (int32 a - 1) = int32 (a - 1).
Proof.
  intros a. unfold int32. replace ((a + 2 ^ 31) mod 2 ^ 32 - 2 ^ 31 - 1 + 2 ^ 31) with ((a + 2 ^ 31) mod 2 ^ 32 - 1) by lia.
  rewrite Zminus_mod_idemp_l. f_equal. f_equal. lia.
Qed.
Lemma int32_zero : forall a, 0 < a < 2 ^ 32 -> int32 (- a) <> 0.
Proof.
  intros a A E. unfold int32 in E. assert (H : (- a + 2 ^ 31) mod 2 ^ 32 = 2 ^ 31) by lia.
  pose proof (Z.div_mod (- a + 2 ^ 31) (2 ^ 32) ltac:(lia)) as D. rewrite H in D. lia.
Qed.
Lemma spinning : forall m s, (Z.of_nat m < 2 ^ 32) -> lock_word s = 0 -> at_pc (threads s 1%nat) = ADec -> buf (threads s 1%nat) = [] ->
  let s' := run AtomicSpin s (repeat (CStep 1) m) in
  lock_word s' = int32 (- Z.of_nat m) /\ at_pc (threads s' 1%nat) = ADec /\ buf (threads s' 1%nat) = [] /\ threads s' 0%nat = threads s 0%nat.
Proof.
  intros m s LM L0 E1 E2. induction m as [|m IH].
  - cbn [repeat run fold_left]. rewrite L0. repeat split; auto.
  - assert (R : repeat (CStep 1) (S m) = repeat (CStep 1) m ++ [CStep 1]) by (rewrite <- repeat_cons; reflexivity).
    rewrite R. unfold run. rewrite fold_left_app. cbv zeta in *. destruct IH as (A1 & A2 & A3 & A4); [lia|]. unfold run in A1, A2, A3, A4.
    set (s1 := fold_left (step AtomicSpin) (repeat (CStep 1) m) s) in *. cbn [fold_left step]. rewrite A2, A3. cbn [lock_word threads]. rewrite A1, int32_dec.
    replace (- Z.of_nat m - 1) with (- Z.of_nat (S m)) by lia.
    replace (int32 (- Z.of_nat (S m)) =? 0) with false by (symmetry; apply Z.eqb_neq, int32_zero; lia).
    rewrite set_same. cbn [at_pc buf]. repeat split; auto.
Qed.
Theorem C48_atomic_spin_lock_refuted : exists sched,
  let s := run AtomicSpin init sched in inside s 0 /\ inside s 1.
Proof.
  assert (M : exists m, Z.of_nat m = 2 ^ 32 - 1) by (exists (Z.to_nat (2 ^ 32 - 1)); apply Z2Nat.id; lia). destruct M as (m & M).
  exists ([CLock 0; CStep 0; CLock 1] ++ repeat (CStep 1) m ++ [CStep 1]).
  unfold run. rewrite !fold_left_app. cbv zeta.
  set (s0 := fold_left (step AtomicSpin) [CLock 0; CStep 0; CLock 1] init).
  destruct (spinning m s0) as (A1 & A2 & A3 & A4); [lia|reflexivity|reflexivity|reflexivity|].
  unfold run in *. set (s1 := fold_left (step AtomicSpin) (repeat (CStep 1) m) s0) in *.
  cbn [fold_left step]. rewrite A2, A3. rewrite A1, M. change (int32 (int32 (- (2 ^ 32 - 1)) - 1)) with 0.
  unfold inside. cbn [threads]. rewrite set_same, set_other by lia. rewrite A4. split; exact I.
Qed.
Print Assumptions C48_atomic_spin_lock_refuted.

(** A free lock can be taken: a thread running alone gets in within three steps. *)
Theorem C48_free_lock_is_taken : forall k s t, lock_word s = 1 -> at_pc (threads s t) = Out -> buf (threads s t) = [] ->
  inside (run k s [CLock t; CStep t; CStep t]) t.
Proof.
  intros k s t L E B. unfold run. cbn [fold_left step]. rewrite E.
  unfold inside. destruct k; cbn [step threads lock_word data increments lock_start]; rewrite ?set_same; cbn [at_pc buf]; rewrite ?B, ?L; cbn [lock_word threads];
    rewrite ?set_same; cbn [at_pc buf load newest]; rewrite ?L; cbn; rewrite ?set_same; cbn [at_pc buf threads lock_word];
    rewrite ?set_same; cbn [at_pc]; rewrite ?B, ?L; cbn; rewrite ?set_same; exact I.
Qed.
Print Assumptions C48_free_lock_is_taken.

(** Two threads contend; the release sits in the store buffer for a while. *)
Example C48_example :
  let s := run Glibc init [CLock 0; CStep 0; CRead 0; CStep 0; CLock 1; CStep 1; CUnlock 0; CStep 1; CFlush 0; CStep 1; CFlush 0; CStep 1; CStep 1; CRead 1; CStep 1] in
  inside s 1 /\ ~ inside s 0 /\ increments s = 2 /\ data s = 1 /\ load s (threads s 1%nat) LData = 2.
Proof. vm_compute. repeat split; auto. Qed.
Example C48_example_yield :
  let s := run Yield init [CLock 0; CStep 0; CStep 0; CLock 1; CStep 1; CStep 1; CStep 1; CStep 1; CStep 1; CStep 1; CUnlock 0; CFlush 0; CStep 1; CStep 1] in
  inside s 1 /\ ~ inside s 0.
Proof. vm_compute. repeat split; auto. Qed.
