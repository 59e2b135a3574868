(** Proofs about the random doubles. *)
From Coq Require Import List ZArith Reals Lra Lia Psatz.
From Flocq Require Import Core BinarySingleNaN.
From Verif Require Import Common Double64 Clock_Proofs RandomDouble_Model.
Local Open Scope Z_scope.

Lemma open_spec r : 0 <= r < 2 ^ 32 -> B2R (dmul (of_Z r) MTR_int_to_open) = (IZR r / IZR (2 ^ 32))%R /\ is_finite (dmul (of_Z r) MTR_int_to_open) = true.
Proof.
  intros H. destruct (of_Z_exact r) as (E1 & F1); [lia|]. assert (C32 : (0 < IZR (2 ^ 32))%R) by (apply IZR_lt; lia).
  assert (EO : B2R MTR_int_to_open = bpow radix2 (-32) /\ is_finite MTR_int_to_open = true).
  { unfold MTR_int_to_open. destruct (of_Z_exact 1) as (A & B); [lia|]. destruct (of_Z_exact 4294967296) as (A' & B'); [lia|].
    destruct (ddiv_spec (of_Z 1) (of_Z 4294967296) 0 B) as (E & F); [rewrite A'; lra|lia| |].
    - rewrite A, A'. rewrite Rabs_pos_eq by lra. change (bpow radix2 0) with 1%R. lra.
    - split; [|exact F]. rewrite E, A, A'. rewrite rnd_id; [change (bpow radix2 (-32)) with (/ 4294967296)%R; lra|].
      replace (1 / 4294967296)%R with (IZR 1 * bpow radix2 (-32))%R by (change (bpow radix2 (-32)) with (/ 4294967296)%R; lra). apply fmt_F2R; lia. }
  destruct EO as (E2 & F2). assert (Q : (IZR r * bpow radix2 (-32) = IZR r / IZR (2 ^ 32))%R) by reflexivity.
  destruct (dmul_spec (of_Z r) MTR_int_to_open 0 F1 F2) as (E & F); [lia| |].
  - rewrite E1, E2, Q. rewrite Rabs_pos_eq by (apply quot_nonneg; lia). left. apply (quot_lt r (2 ^ 32) 1); lia.
  - split; [|exact F]. rewrite E, E1, E2. rewrite rnd_id; [exact Q|]. apply fmt_F2R; lia.
Qed.
Lemma one_double (x : double) : x = of_Z 1 -> B2R x = 1%R.
Proof. intros ->. now destruct (of_Z_exact 1) as (E & _); [lia|]. Qed.
Lemma closed_at_max : dmul (of_Z (2 ^ 32 - 1)) MTR_int_to_closed = of_Z 1.
Proof. apply (B2SF_inj 53 1024). vm_compute. reflexivity. Qed.
Lemma closed_below_max : Bltb (dmul (of_Z (2 ^ 32 - 2)) MTR_int_to_closed) (of_Z 1) = true.
Proof. vm_compute. reflexivity. Qed.
Lemma closed_const : (0 < B2R MTR_int_to_closed <= / 2)%R /\ is_finite MTR_int_to_closed = true.
Proof.
  unfold MTR_int_to_closed. destruct (of_Z_exact 1) as (A & B); [lia|]. destruct (of_Z_exact 4294967295) as (A' & B'); [lia|].
  destruct (ddiv_spec (of_Z 1) (of_Z 4294967295) 0 B) as (E & F); [rewrite A'; lra|lia| |].
  - rewrite A, A'. rewrite Rabs_pos_eq by lra. change (bpow radix2 0) with 1%R. lra.
  - split; [|exact F]. rewrite E, A, A'. split.
    + apply Rlt_le_trans with (bpow radix2 (-33)); [apply bpow_gt_0|]. rewrite <- (rnd_id (bpow radix2 (-33))) by (apply fmt_bpow; lia). apply rnd_le. change (bpow radix2 (-33)) with (/ 8589934592)%R. lra.
    + change (/ 2)%R with (bpow radix2 (-1)). rewrite <- (rnd_id (bpow radix2 (-1))) by (apply fmt_bpow; lia). apply rnd_le. change (bpow radix2 (-1)) with (/ 2)%R. lra.
Qed.
Lemma closed_spec r : 0 <= r < 2 ^ 32 -> B2R (dmul (of_Z r) MTR_int_to_closed) = rnd (IZR r * B2R MTR_int_to_closed) /\ is_finite (dmul (of_Z r) MTR_int_to_closed) = true.
Proof.
  intros H. destruct (of_Z_exact r) as (E1 & F1); [lia|]. destruct closed_const as (C & F2).
  destruct (dmul_spec (of_Z r) MTR_int_to_closed 32 F1 F2) as (E & F); [lia| |now rewrite E, E1].
  rewrite E1. assert (0 <= IZR r)%R by (apply IZR_le; lia). rewrite Rabs_pos_eq by nra. change (bpow radix2 32) with (IZR (2 ^ 32)). assert (IZR r <= IZR (2 ^ 32))%R by (apply IZR_le; lia). nra.
Qed.
Lemma closed_mono r r' : 0 <= r <= r' -> r' < 2 ^ 32 -> (B2R (dmul (of_Z r) MTR_int_to_closed) <= B2R (dmul (of_Z r') MTR_int_to_closed))%R.
Proof.
  intros H H'. rewrite (proj1 (closed_spec r ltac:(lia))), (proj1 (closed_spec r' ltac:(lia))). apply rnd_le. destruct closed_const as ((C & _) & _). apply Rmult_le_compat_r; [lra|]. apply IZR_le. lia.
Qed.
Lemma closed_range r : 0 <= r < 2 ^ 32 -> (0 <= B2R (dmul (of_Z r) MTR_int_to_closed) <= 1)%R /\ (B2R (dmul (of_Z r) MTR_int_to_closed) = 1%R <-> r = 2 ^ 32 - 1).
Proof.
  intros H. split; [split|split].
  - rewrite (proj1 (closed_spec r H)). rewrite <- rnd_0. apply rnd_le. destruct closed_const as ((C & _) & _). assert (0 <= IZR r)%R by (apply IZR_le; lia). nra.
  - rewrite <- (one_double _ closed_at_max). apply closed_mono; lia.
  - intros E. destruct (Z.eq_dec r (2 ^ 32 - 1)) as [|N]; [assumption|exfalso]. pose proof (closed_mono r (2 ^ 32 - 2) ltac:(lia) ltac:(lia)) as M.
    pose proof closed_below_max as B. destruct (of_Z_exact 1) as (A1 & F1); [lia|]. rewrite bltb_R in B by (auto; apply closed_spec; lia). rewrite A1 in B. destruct (Rlt_bool_spec (B2R (dmul (of_Z (2 ^ 32 - 2)) MTR_int_to_closed)) 1); [lra|discriminate].
  - intros ->. apply one_double, closed_at_max.
Qed.

Lemma mix53 a b : 0 <= a < 2 ^ 27 -> 0 <= b < 2 ^ 26 -> B2R (dadd (dmul (of_Z a) MTR_AMult) (of_Z b)) = IZR (a * 2 ^ 26 + b) /\ is_finite (dadd (dmul (of_Z a) MTR_AMult) (of_Z b)) = true.
Proof.
  intros Ha Hb. destruct (of_Z_exact a) as (E1 & F1); [lia|]. destruct (of_Z_exact b) as (E2 & F2); [lia|]. destruct (of_Z_exact 67108864) as (E3 & F3); [lia|]. fold MTR_AMult in E3, F3.
  destruct (dmul_spec (of_Z a) MTR_AMult 53 F1 F3) as (E & F); [lia| |].
  { rewrite E1, E3, <- mult_IZR, <- abs_IZR. change (bpow radix2 53) with (IZR (2 ^ 53)). apply IZR_le. lia. }
  rewrite E1, E3, <- mult_IZR, rnd_Z in E by lia. destruct (dadd_spec (dmul (of_Z a) MTR_AMult) (of_Z b) 53 F F2) as (E' & F'); [lia| |].
  { rewrite E, E2, <- plus_IZR, <- abs_IZR. change (bpow radix2 53) with (IZR (2 ^ 53)). apply IZR_le. lia. }
  split; [|exact F']. rewrite E', E, E2, <- plus_IZR. apply rnd_Z. lia.
Qed.
Lemma open53_spec a b : 0 <= a < 2 ^ 27 -> 0 <= b < 2 ^ 26 -> B2R (MTR_53bits_to_open a b) = (IZR (a * 2 ^ 26 + b) / IZR (2 ^ 53))%R /\ is_finite (MTR_53bits_to_open a b) = true.
Proof.
  intros Ha Hb. destruct (mix53 a b Ha Hb) as (E1 & F1). destruct (of_Z_exact 9007199254740992) as (E2 & F2); [lia|]. unfold MTR_53bits_to_open.
  destruct (ddiv_spec (dadd (dmul (of_Z a) MTR_AMult) (of_Z b)) (of_Z 9007199254740992) 0 F1) as (E & F); [rewrite E2; lra|lia| |].
  - rewrite E1, E2. change 9007199254740992 with (2 ^ 53). rewrite Rabs_pos_eq by (apply quot_nonneg; lia). left. apply (quot_lt _ (2 ^ 53) 1); lia.
  - split; [|exact F]. rewrite E, E1, E2. change 9007199254740992 with (2 ^ 53). apply rnd_id. change (IZR (a * 2 ^ 26 + b) / IZR (2 ^ 53))%R with (IZR (a * 2 ^ 26 + b) * bpow radix2 (-53))%R. apply fmt_F2R; lia.
Qed.
Lemma closed53_spec a b : 0 <= a < 2 ^ 27 -> 0 <= b < 2 ^ 26 -> B2R (MTR_53bits_to_closed a b) = rnd (IZR (a * 2 ^ 26 + b) / IZR (2 ^ 53 - 1)) /\ is_finite (MTR_53bits_to_closed a b) = true.
Proof.
  intros Ha Hb. destruct (mix53 a b Ha Hb) as (E1 & F1). destruct (of_Z_exact 9007199254740991) as (E2 & F2); [lia|]. unfold MTR_53bits_to_closed.
  destruct (ddiv_spec (dadd (dmul (of_Z a) MTR_AMult) (of_Z b)) (of_Z 9007199254740991) 1 F1) as (E & F); [rewrite E2; lra|lia| |].
  - rewrite E1, E2. change 9007199254740991 with (2 ^ 53 - 1). rewrite Rabs_pos_eq by (apply quot_nonneg; lia). left. apply (quot_lt _ (2 ^ 53 - 1) 2); lia.
  - split; [|exact F]. now rewrite E, E1, E2.
Qed.
Lemma closed53_mono n n' : n <= n' -> (rnd (IZR n / IZR (2 ^ 53 - 1)) <= rnd (IZR n' / IZR (2 ^ 53 - 1)))%R.
Proof. intros H. apply rnd_le. apply Rmult_le_compat_r; [left; apply Rinv_0_lt_compat, IZR_lt; lia|]. now apply IZR_le. Qed.
Lemma closed53_below : Bltb (MTR_53bits_to_closed (2 ^ 27 - 1) (2 ^ 26 - 2)) (of_Z 1) = true.
Proof. vm_compute. reflexivity. Qed.
Lemma closed53_range n : 0 <= n < 2 ^ 53 -> (0 <= rnd (IZR n / IZR (2 ^ 53 - 1)) <= 1)%R /\ (rnd (IZR n / IZR (2 ^ 53 - 1)) = 1%R <-> n = 2 ^ 53 - 1).
Proof.
  intros H. assert (C : (0 < IZR (2 ^ 53 - 1))%R) by (apply IZR_lt; lia). assert (M1 : rnd (IZR (2 ^ 53 - 1) / IZR (2 ^ 53 - 1)) = 1%R).
  { unfold Rdiv. rewrite Rinv_r by lra. apply (rnd_Z 1). lia. }
  split; [split|split].
  - rewrite <- rnd_0. apply rnd_le. apply quot_nonneg; lia.
  - rewrite <- M1. apply closed53_mono. lia.
  - intros E. destruct (Z.eq_dec n (2 ^ 53 - 1)) as [|N]; [assumption|exfalso]. pose proof (closed53_mono n (2 ^ 53 - 2) ltac:(lia)) as M. pose proof closed53_below as B.
    destruct (of_Z_exact 1) as (A1 & F1); [lia|]. destruct (closed53_spec (2 ^ 27 - 1) (2 ^ 26 - 2)) as (E2 & F2); [lia|lia|]. rewrite bltb_R in B by auto. rewrite A1, E2 in B.
    replace ((2 ^ 27 - 1) * 2 ^ 26 + (2 ^ 26 - 2)) with (2 ^ 53 - 2) in B by lia. rewrite E in M. clear E E2 M1. revert M B. generalize (rnd (IZR (2 ^ 53 - 2) / IZR (2 ^ 53 - 1))). intros u L B. case (Rlt_bool_spec u 1) in B; [lra|discriminate B].
  - now intros ->.
Qed.
