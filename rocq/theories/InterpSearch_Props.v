(** Property C30 of the interpolation search. *)
From Coq Require Import List Arith Bool ZArith Reals Lra Lia ZifyBool ZifyNat.
From Flocq Require Import Core BinarySingleNaN.
From Verif Require Import Common CommonFacts ListFacts Double64 InterpSearch_Spec InterpSearch_Model InterpSearch_Proofs.
Import ListNotations.

(** Any estimator that answers within the range makes the search return the lower
    bound, within [length l] rounds of its main loop; no element outside the range
    is looked at (that would be UB). *)
Theorem C30_lower_bound : forall A (less : A -> A -> bool) estimator is bs below l v fuel,
  strict_weak_order less -> in_order less l ->
  (forall first last last_pos, In first l -> In last l -> less first v = true -> less last v = false ->
     last_pos < length l -> exists n, estimator v first last last_pos = Ok n /\ n <= last_pos) ->
  (0 < is \/ 0 < bs) -> length l <= fuel ->
  exists r, interpolationLowerBound less estimator is bs below l v fuel = Ok r /\ lower_bound_at less l v r.
Proof.
  intros A less est is bs below l v fuel W O He St F. destruct (partition_point A less l v W O) as [p Hp]. exists p. split; [|exact Hp].
  apply interpolation_ok; auto. lia.
Qed.
(** The lower bound is unique, so this is the position std::lower_bound gives. *)
Theorem C30_lower_bound_unique : forall A (less : A -> A -> bool) l v r r',
  lower_bound_at less l v r -> lower_bound_at less l v r' -> r = r'.
Proof.
  assert (G : forall A (less : A -> A -> bool) l v r r', lower_bound_at less l v r -> lower_bound_at less l v r' -> r' <= r).
  { intros A less l v r r' (L & H1 & H2) (L' & H1' & H2'). destruct (Nat.le_gt_cases r' r) as [|G]; [assumption|].
    destruct (nth_error l r) as [x|] eqn:E; [|apply nth_error_None in E; lia].
    specialize (H1' r x E G). rewrite (H2 r x E) in H1' by lia. discriminate. }
  intros. apply Nat.le_antisymm; eapply G; eauto.
Qed.

Lemma Zltb_order : strict_weak_order Z.ltb.
Proof. repeat split; intros; lia. Qed.

(** The default estimator, with the double arithmetic it does. *)
Lemma estimate_ok : forall diff range last_pos, (0 < diff <= range)%Z -> (range < 2 ^ 64)%Z -> (Z.of_nat last_pos <= 2 ^ 53)%Z ->
  exists n, estimate diff range last_pos = Ok n /\ n <= last_pos.
Proof.
  intros d r lp Hd Hr Hl. unfold estimate.
  destruct (of_Z_spec d ltac:(lia)) as [D1 D2]. destruct (of_Z_spec r ltac:(lia)) as [R1 R2].
  destruct (of_Z_spec (Z.of_nat lp) ltac:(lia)) as [L1 L2]. rewrite rnd_Z in L1 by lia.
  assert (P : (1 <= rnd (IZR d))%R).
  { rewrite <- (rnd_Z 1) by lia. apply rnd_le. apply IZR_le. lia. }
  assert (Q : (rnd (IZR d) <= rnd (IZR r))%R) by (apply rnd_le; apply IZR_le; lia).
  assert (Rel : (0 <= B2R (of_Z d) / B2R (of_Z r) <= 1)%R).
  { rewrite D1, R1. split; [apply Rmult_le_pos; [lra|]; left; apply Rinv_0_lt_compat; lra|].
    apply Rmult_le_reg_r with (rnd (IZR r)); [lra|]. unfold Rdiv. rewrite Rmult_assoc, Rinv_l by lra. lra. }
  destruct (ddiv_spec (of_Z d) (of_Z r) 0 D2) as [V1 V2]; [rewrite R1; lra|lia|rewrite Rabs_pos_eq by lra; cbn; lra|].
  assert (Vb : (0 <= B2R (ddiv (of_Z d) (of_Z r)) <= 1)%R).
  { rewrite V1. split; [rewrite <- rnd_0; apply rnd_le; lra|]. rewrite <- (rnd_Z 1) by lia. apply rnd_le. lra. }
  set (q := ddiv (of_Z d) (of_Z r)) in *.
  assert (Lb : (0 <= IZR (Z.of_nat lp) <= IZR (2 ^ 53))%R) by (split; apply IZR_le; lia).
  assert (Mb : (0 <= B2R q * B2R (of_Z (Z.of_nat lp)) <= IZR (Z.of_nat lp))%R).
  { rewrite L1. split; [apply Rmult_le_pos; lra|]. rewrite <- (Rmult_1_l (IZR (Z.of_nat lp))) at 2. apply Rmult_le_compat_r; lra. }
  destruct (dmul_spec q (of_Z (Z.of_nat lp)) 53 V2 L2) as [M1 M2]; [lia|rewrite Rabs_pos_eq by lra; change (bpow radix2 53) with (IZR (2 ^ 53)); lra|].
  assert (Fb : (0 <= B2R (dmul q (of_Z (Z.of_nat lp))) <= IZR (Z.of_nat lp))%R).
  { rewrite M1. split; [rewrite <- rnd_0; apply rnd_le; lra|]. rewrite <- (rnd_Z (Z.of_nat lp)) by lia. apply rnd_le. lra. }
  destruct (to_unsigned_spec 64 (dmul q (of_Z (Z.of_nat lp))) M2) as [T1 T2].
  { split; [lra|]. apply Rle_lt_trans with (IZR (2 ^ 53)); [lra|]. apply IZR_lt. lia. }
  rewrite T1. cbn [bind]. eexists. split; [reflexivity|].
  assert (Zfloor (B2R (dmul q (of_Z (Z.of_nat lp)))) <= Z.of_nat lp)%Z; [|lia].
  apply le_IZR. eapply Rle_trans; [apply Zfloor_lb|lra].
Qed.

(** The default search on unsigned 64-bit values (of at most 2^53 elements). *)
Theorem C30_default_unsigned : forall l v, in_order Z.ltb l -> (forall x, In x l -> 0 <= x < 2 ^ 64)%Z -> (0 <= v < 2 ^ 64)%Z ->
  (Z.of_nat (length l) <= 2 ^ 53)%Z ->
  exists r, lowerBound_u64 l v = Ok r /\ lower_bound_at Z.ltb l v r.
Proof.
  intros l v O B Hv L. apply C30_lower_bound; [apply Zltb_order|exact O| |lia|lia].
  intros first last lp If Il Hf Hl Lp. pose proof (B _ If). pose proof (B _ Il). unfold estimate_u64.
  rewrite !Z.mod_small by lia. apply estimate_ok; lia.
Qed.
(** On signed 64-bit values only when they span less than half the type's range. *)
Theorem C30_default_signed_partial : forall l v, in_order Z.ltb l -> (forall x, In x l -> - 2 ^ 63 <= x < 2 ^ 63)%Z ->
  (forall x y, In x l -> In y l -> y - x < 2 ^ 63)%Z -> (Z.of_nat (length l) <= 2 ^ 53)%Z ->
  exists r, lowerBound_i64 l v = Ok r /\ lower_bound_at Z.ltb l v r.
Proof.
  intros l v O B Sp L. apply C30_lower_bound; [apply Zltb_order|exact O| |lia|lia].
  intros first last lp If Il Hf Hl Lp. pose proof (B _ If). pose proof (B _ Il). pose proof (Sp _ _ If Il). unfold estimate_i64, int64_sub.
  replace ((- 2 ^ 63 <=? last - first) && (last - first <? 2 ^ 63))%Z with true by lia. cbn [bind].
  replace ((- 2 ^ 63 <=? v - first) && (v - first <? 2 ^ 63))%Z with true by lia. cbn [bind].
  rewrite Z.mod_small by lia. apply estimate_ok; lia.
Qed.
(** A sorted array of int64_t with values far apart makes it overflow. *)
Theorem C30_default_signed_refuted : exists l v, in_order Z.ltb l /\ (forall x, In x l -> - 2 ^ 63 <= x < 2 ^ 63)%Z
  /\ (- 2 ^ 63 <= v < 2 ^ 63)%Z /\ lowerBound_i64 l v = UB.
Proof.
  exists [- 2 ^ 62; 0; 2 ^ 62]%Z, 5%Z. split; [|split; [|split; [lia|vm_compute; reflexivity]]].
  - intros [|[|[|i]]] [|[|[|j]]] x y; cbn; intros Hx Hy Lt; try discriminate; try lia;
      try (injection Hx as <-); try (injection Hy as <-); try reflexivity; try (destruct i; discriminate); destruct j; discriminate.
  - intros x [<-|[<-|[<-|[]]]]; lia.
Qed.
Example C30_nonvacuous : lowerBound_u64 [2; 3; 3; 7; 18446744073709551615]%Z 4%Z = Ok 3 /\ lowerBound_i64 [-5; -2; 9]%Z 10%Z = Ok 3
  /\ (forall below, interpolationLowerBound Z.ltb (fun _ _ _ _ => Ok 0) 1 0 below [1; 2; 3; 4; 5]%Z 5%Z 5 = Ok 4).
Proof. split; [vm_compute; reflexivity|]. split; [vm_compute; reflexivity|]. intros [|[|[|[|[|[|below]]]]]]; vm_compute; reflexivity. Qed.
Print Assumptions C30_lower_bound.
Print Assumptions C30_default_unsigned.
Print Assumptions C30_default_signed_partial.
Print Assumptions C30_default_signed_refuted.
