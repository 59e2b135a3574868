(** Properties C76 and C77: the integer test and conversion of doubles, and the inverse
    error function. *)
From Coq Require Import ZArith Bool Reals Lra Lia Psatz.
From Coq Require Import ZifyBool.
From Flocq Require Import Core BinarySingleNaN.
From Verif Require Import Common Double64 Arith Double_Model RealArith Clock_Proofs MathFns_Model MathFns_Spec MathFns_RealSpec MathFns_Proofs MathFns_Conv MathFns_Erf MathFns_Newton MathFns_Guess.
Local Open Scope Z_scope.

Lemma Ok_eq {A} (a b : A) : Ok a = Ok b -> a = b.
Proof. now injection 1. Qed.

(** isDoubleIntegral answers yes exactly for the numbers up to 2^49 that lie within 1/16 of
    an integer. *)
Theorem C76_integral (d : double) : is_finite d = true ->
  exists b, isDoubleIntegral d 8 = Ok b /\
    (b = true <-> (Rabs (B2R d) <= IZR (2 ^ 49))%R /\ near_integer (B2R d)).
Proof.
  intros F. assert (T : exists b, isDoubleIntegral d 8 = Ok b). { unfold isDoubleIntegral. change (negb ((0 <? 8) && (8 =? 8))) with false. cbv iota. repeat match goal with |- context [if ?c then _ else _] => destruct c end; eauto. }
  destruct T as (b & E). exists b. split; [exact E|]. rewrite <- (integral_spec d F), E. split; [now intros ->|intros H; now apply Ok_eq in H].
Qed.
Print Assumptions C76_integral.
Example C76_integral_yes : isDoubleIntegral (dadd (of_Z 1000) (ddiv (of_Z 1) (of_Z 17))) 8 = Ok true.
Proof. vm_compute. reflexivity. Qed.
Example C76_integral_no : isDoubleIntegral (dsub (of_Z 1000) (ddiv (of_Z 1) (of_Z 15))) 8 = Ok false.
Proof. vm_compute. reflexivity. Qed.

(** Only the sizes of long and long long are accepted, and infinities are no integers. *)
Theorem C76_sizes (d : double) (size : Z) : isDoubleIntegral d size = Abort <-> size <> 8.
Proof.
  unfold isDoubleIntegral. destruct (Z.eq_dec size 8) as [->|N].
  - change (negb ((0 <? 8) && (8 =? 8))) with false. cbv iota. split; [|contradiction]. repeat match goal with |- context [if ?c then _ else _] => destruct c end; discriminate.
  - split; [intros; exact N|]. intros _. replace (negb ((0 <? size) && (size =? 8))) with true by lia. reflexivity.
Qed.
Print Assumptions C76_sizes.
Theorem C76_infinite (s : bool) : isDoubleIntegral (B754_infinity s) 8 = Ok false /\ convertDoubleLong (B754_infinity s) = UB.
Proof. destruct s; split; vm_compute; reflexivity. Qed.
Print Assumptions C76_infinite.

(** convertDoubleLong rounds to the nearest integer, halves away from zero. *)
Theorem C76_convert (d : double) : is_finite d = true -> (Rabs (B2R d) < IZR (2 ^ 63))%R -> ~ awkward (B2R d) ->
  exists n, convertDoubleLong d = Ok n /\ rounds_to (B2R d) n.
Proof.
  intros F H N. pose proof (conv_rounds (B2R d) (fmt_B2R d) N) as R. pose proof (rounds_fits d _ H R) as B. exists (conv (B2R d)). split; [|exact R]. rewrite (convert_conv d F). replace ((- 2 ^ 63 <=? conv (B2R d)) && (conv (B2R d) <? 2 ^ 63)) with true by lia. reflexivity.
Qed.
Print Assumptions C76_convert.
Example C76_convert_runs : convertDoubleLong (ddiv (of_Z (-5)) (of_Z 2)) = Ok (-3) /\ convertDoubleLong (ddiv (of_Z 12) (of_Z 5)) = Ok 2 /\ convertDoubleLong (of_Z (2 ^ 62 + 1024)) = Ok (2 ^ 62 + 1024).
Proof. repeat split; vm_compute; reflexivity. Qed.

(** Not for the numbers just below one half and for large odd integers: the result is more
    than one half away. *)
Theorem C76_awkward_refuted (d : double) : is_finite d = true -> awkward (B2R d) ->
  exists n, convertDoubleLong d = Ok n /\ (/ 2 < Rabs (B2R d - IZR n) <= 1)%R.
Proof.
  intros F A. destruct (conv_awkward _ A) as (H1 & H2). exists (conv (B2R d)). split; [|exact H1]. rewrite (convert_conv d F). replace ((- 2 ^ 63 <=? conv (B2R d)) && (conv (B2R d) <? 2 ^ 63)) with true by lia. reflexivity.
Qed.
Print Assumptions C76_awkward_refuted.
Example C76_awkward_case : convertDoubleLong (of_Z (2 ^ 52 + 1)) = Ok (2 ^ 52 + 2) /\ convertDoubleLong (Bpred (ddiv (of_Z 1) (of_Z 2))) = Ok 1.
Proof. split; vm_compute; reflexivity. Qed.

(** Outside the range of long the conversion is undefined. *)
Theorem C76_out_of_range (d : double) : is_finite d = true -> (IZR (2 ^ 63) < Rabs (B2R d) \/ B2R d = IZR (2 ^ 63))%R ->
  convertDoubleLong d = UB.
Proof.
  intros F H. rewrite (convert_conv d F). assert (P53 : (bpow radix2 53 < IZR (2 ^ 63))%R) by (change (bpow radix2 53) with (IZR (2 ^ 53)); apply IZR_lt; lia). assert (Q : (0 < bpow radix2 53)%R) by apply bpow_gt_0.
  assert (C : conv (B2R d) < - 2 ^ 63 \/ 2 ^ 63 <= conv (B2R d)).
  { destruct (Rle_or_lt 0 (B2R d)) as [S|S].
    - destruct (conv_above (B2R d) (fmt_B2R d)) as (n & E & ->); [destruct H as [H|H]; [rewrite Rabs_pos_eq in H by exact S|]; lra|]. right. apply le_IZR. rewrite <- E. destruct H as [H|H]; [rewrite Rabs_pos_eq in H by exact S|]; lra.
    - destruct H as [H|H]; [|lra]. rewrite Rabs_left in H by exact S. destruct (conv_above (- B2R d) (fmt_opp _ (fmt_B2R d))) as (n & E & E2); [lra|]. left.
      replace (B2R d) with (- - B2R d)%R by ring. rewrite conv_opp by lra. rewrite E2. assert (2 ^ 63 < n) by (apply lt_IZR; lra). lia. }
  replace ((- 2 ^ 63 <=? conv (B2R d)) && (conv (B2R d) <? 2 ^ 63)) with false by lia. reflexivity.
Qed.
Print Assumptions C76_out_of_range.
Example C76_range_ends : convertDoubleLong (of_Z (2 ^ 63)) = UB /\ convertDoubleLong (of_Z (- 2 ^ 63)) = Ok (- 2 ^ 63) /\ convertDoubleLong (of_Z (2 ^ 63 - 1024)) = Ok (2 ^ 63 - 1024).
Proof. repeat split; vm_compute; reflexivity. Qed.

(** A number that passed the test converts to the integer it is close to. *)
Theorem C76_checked_convert (d : double) : is_nan d = false -> isDoubleIntegral d 8 = Ok true ->
  exists n, convertDoubleLong d = Ok n /\ (Rabs (B2R d - IZR n) < / 16)%R.
Proof.
  intros N I. assert (F : is_finite d = true). { destruct d as [|s| |]; try reflexivity; [|discriminate N]. rewrite (proj1 (C76_infinite s)) in I. discriminate. }
  apply (integral_spec d F) in I. destruct I as (H & k & K).
  assert (L49 : (IZR (2 ^ 49) < IZR (2 ^ 52))%R) by (apply IZR_lt; lia). assert (L52 : (IZR (2 ^ 52) < IZR (2 ^ 63))%R) by (apply IZR_lt; lia).
  destruct (C76_convert d F) as (n & E & (R & _)).
  - lra.
  - intros [A|(j & A & _ & B)].
    + assert (HP : (32 < IZR (2 ^ 54))%R) by (apply IZR_lt; lia). assert (Iv : (0 < / IZR (2 ^ 54) < / 32)%R) by (split; [apply Rinv_0_lt_compat; lra|apply Rinv_lt_contravar; nra]).
      assert (J : (B2R d = Rabs (B2R d) \/ B2R d = - Rabs (B2R d))%R) by (destruct (Rcase_abs (B2R d)); [rewrite Rabs_left by lra|rewrite Rabs_pos_eq by lra]; lra).
      apply Rabs_def2 in K. destruct J as [J|J]; rewrite J, A in K.
      * assert (0 < k) by (apply lt_IZR; lra). assert (k < 1) by (apply lt_IZR; lra). lia.
      * assert (-1 < k) by (apply lt_IZR; lra). assert (k < 0) by (apply lt_IZR; lra). lia.
    + assert (IZR (2 ^ 52) < Rabs (B2R d))%R by (rewrite A, <- abs_IZR; apply IZR_lt; lia). lra.
  - exists n. split; [exact E|]. unfold nearest in R. replace n with k; [exact K|]. apply Rabs_def2 in K. apply Rabs_le_inv in R. assert (-1 < k - n) by (apply lt_IZR; rewrite minus_IZR; lra). assert (k - n < 1) by (apply lt_IZR; rewrite minus_IZR; lra). lia.
Qed.
Print Assumptions C76_checked_convert.
Example C76_checked_case : isDoubleIntegral (of_Z (- 2 ^ 49)) 8 = Ok true /\ convertDoubleLong (of_Z (- 2 ^ 49)) = Ok (- 2 ^ 49).
Proof. split; vm_compute; reflexivity. Qed.

(** NaN passes the test, and converting it is undefined. *)
Theorem C76_nan_refuted : isDoubleIntegral B754_nan 8 = Ok true /\ convertDoubleLong B754_nan = UB.
Proof. split; vm_compute; reflexivity. Qed.
Print Assumptions C76_nan_refuted.
(** An exact integer above 2^49 that a long can hold fails the test. *)
Theorem C76_large_refuted (d : double) (n : Z) : is_finite d = true -> B2R d = IZR n -> 2 ^ 49 < Z.abs n ->
  isDoubleIntegral d 8 = Ok false.
Proof.
  intros F E N. destruct (C76_integral d F) as ([|] & I & J); [|exact I]. exfalso. destruct (proj1 J eq_refl) as (H & _). rewrite E, <- abs_IZR in H. apply le_IZR in H. lia.
Qed.
Print Assumptions C76_large_refuted.
Example C76_large_case : isDoubleIntegral (of_Z (2 ^ 50)) 8 = Ok false.
Proof. vm_compute. reflexivity. Qed.

(** ** C77: inverseErf *)
(** In real arithmetic the iteration ends for every number between 0 and the largest double
    below 1, and the error function takes the result back to the argument up to 10^-14. *)
Theorem C77_inverse (y : R) : (0 < y <= 1 - / 2 ^ 53)%R ->
  exists fuel x, inverseErf reals rsqrt rlog rexp real_erf fuel (RFin y) = Ok (RFin x) /\
    (Rabs (Rerf x - y) <= / 10 ^ 14 * y)%R.
Proof.
  intros H. destruct (inverse_erf_real y H) as (fuel & x & E & B). exists fuel, x. split; [exact E|]. apply Rabs_le. lra.
Qed.
Print Assumptions C77_inverse.
Example C77_inverse_case : (0 < 1 / 1000 <= 1 - / 2 ^ 53)%R.
Proof. lra. Qed.
(** What the answer does not depend on: any larger number of iterations allowed. *)
Lemma erf_loop_mono (A : arith) (exp_ erf_ : A -> A) : forall fuel y u l x0 y0 x fuel', (fuel <= fuel')%nat ->
  erf_loop A exp_ erf_ fuel y u l x0 y0 = Ok x -> erf_loop A exp_ erf_ fuel' y u l x0 y0 = Ok x.
Proof.
  induction fuel as [|fuel IH]; intros y u l x0 y0 x fuel' H; cbn [erf_loop]; [discriminate|]. destruct fuel' as [|fuel']; [lia|]. cbn [erf_loop]. destruct (nlt u _ || nlt _ l); [apply IH; lia|auto].
Qed.
(** The normal quantile for probabilities above one half. *)
Theorem C77_quantile (p : R) : (/ 2 < p <= 1 - / 2 ^ 54)%R ->
  exists fuel z, inverseUnitNormalCDF reals rsqrt rlog rexp real_erf fuel (RFin p) = Ok (RFin z) /\
    (Rabs (/ 2 * (1 + Rerf (z / (IZR 6369051672525773 / IZR (2 ^ 52)))) - p) <= / 10 ^ 14)%R.
Proof.
  intros H. destruct (C77_inverse (2 * p - 1)) as (fuel & x & E & B).
  { assert (/ 2 ^ 53 = 2 * / 2 ^ 54)%R by lra. lra. }
  set (k := (IZR 6369051672525773 / IZR (2 ^ 52))%R). assert (P52 : (0 < IZR (2 ^ 52))%R) by (apply IZR_lt; lia). assert (K : k <> 0%R). { unfold k. apply Rgt_not_eq. apply Rdiv_lt_0_compat; [apply IZR_lt; lia|exact P52]. }
  exists fuel, (k * x)%R. split.
  - unfold inverseUnitNormalCDF. cbn [nmul nsub of_int reals rop]. rewrite E. cbn [ndiv of_int reals]. destruct (Req_EM_T (IZR (2 ^ 52)) 0) as [C|C]; [lra|]. reflexivity.
  - replace (k * x / k)%R with x by (field; exact K). replace (/ 2 * (1 + Rerf x) - p)%R with (/ 2 * (Rerf x - (2 * p - 1)))%R by field. rewrite Rabs_mult, (Rabs_pos_eq (/ 2)) by lra. assert (0 < / 10 ^ 14)%R by lra. assert (2 * p - 1 <= 1)%R by lra. nra.
Qed.
Print Assumptions C77_quantile.
Example C77_quantile_case : (/ 2 < 975 / 1000 <= 1 - / 2 ^ 54)%R.
Proof. lra. Qed.

(** In doubles, whatever the library functions return: an answer for a positive argument
    has an erf within 1.1 * 10^-14 of the argument, relatively. *)
Theorem C77_positive (dsqrt dlog dexp derf : double -> double) (fuel : nat) (y x : double) :
  is_finite y = true -> (bpow radix2 (-1000) <= B2R y < 1)%R ->
  inverseErf ieee dsqrt dlog dexp derf fuel y = Ok x -> is_nan (derf x) = false ->
  is_finite (derf x) = true /\ (Rabs (B2R (derf x) - B2R y) <= 11 / 10 ^ 15 * B2R y)%R.
Proof. apply inv_positive. Qed.
Print Assumptions C77_positive.
(** With erf replaced by the identity the double iteration ends at the argument. *)
Example C77_positive_case :
  match inverseErf ieee (fun x => x) (fun _ => of_Z 1) (fun _ => of_Z 1) (fun x => x) 40 (ddiv (of_Z 1) (of_Z 3)) with
  | Ok x => Bltb (Babs (dsub x (ddiv (of_Z 1) (of_Z 3)))) (ddiv (of_Z 1) (of_Z (10 ^ 14))) | _ => false end = true.
Proof. vm_compute. reflexivity. Qed.
(** An answer for zero has erf zero. *)
Theorem C77_zero (dsqrt dlog dexp derf : double -> double) (fuel : nat) (y x : double) :
  is_finite y = true -> B2R y = 0%R -> inverseErf ieee dsqrt dlog dexp derf fuel y = Ok x -> is_nan (derf x) = false ->
  is_finite (derf x) = true /\ B2R (derf x) = 0%R.
Proof. apply inv_zero. Qed.
Print Assumptions C77_zero.
(** From 1 on in absolute value, infinities included, the answer is NaN. *)
Theorem C77_domain (dsqrt dlog dexp derf : double -> double) (fuel : nat) (y : double) :
  is_nan y = false -> (is_finite y = true -> (1 <= Rabs (B2R y))%R) -> inverseErf ieee dsqrt dlog dexp derf fuel y = Ok B754_nan.
Proof. apply inv_outside. Qed.
Print Assumptions C77_domain.
Example C77_domain_case : inverseErf ieee (fun x => x) (fun x => x) (fun x => x) (fun x => x) 0 (of_Z (-1)) = Ok B754_nan.
Proof. vm_compute. reflexivity. Qed.
(** A negative argument never gets an answer: the two bounds of the test are exchanged and
    no erf value lies between them. Here in real arithmetic... *)
Theorem C77_negative_refuted (y : R) : (-1 < y < 0)%R ->
  forall fuel, inverseErf reals rsqrt rlog rexp real_erf fuel (RFin y) = Fuel.
Proof.
  intros H fuel. change real_erf with (rerf Rerf). unfold inverseErf, dabs. rewrite !dec_R, guess_R by (lia || lra). cbn [nlt nle nopp nmul of_int reals rop rcmp rerf].
  destruct (Rlt_dec y 0) as [C|C]; [|lra]. cbn [rcmp]. destruct (Rle_dec 1 (- y)) as [C1|C1]; [lra|]. cbv iota.
  destruct (loop_finite Rerf fuel y (y * (IZR 100000000000001 / IZR (10 ^ 14))) (y * (IZR 99999999999999 / IZR (10 ^ 14))) (gG (gT y)) (Rerf (gG (gT y)))) as [E|(x & E)]; [exact E|]. exfalso.
  apply (erf_loop_exit reals) in E. destruct E as (X1 & X2). cbn [rerf nlt reals rcmp] in X1, X2. change (10 ^ 14) with 100000000000000 in *. destruct (Rlt_dec _ (Rerf x)) as [A|A]; [discriminate X1|]. destruct (Rlt_dec (Rerf x) _) as [B|B]; [discriminate X2|]. lra.
Qed.
Print Assumptions C77_negative_refuted.
(** ... and in doubles: an answer would have an erf that is not a number. *)
Theorem C77_negative_doubles_refuted (dsqrt dlog dexp derf : double -> double) (y : double) :
  is_finite y = true -> (-1 < B2R y <= - bpow radix2 (-1000))%R -> (forall x, is_nan (derf x) = false) ->
  forall fuel, inverseErf ieee dsqrt dlog dexp derf fuel y = Fuel.
Proof.
  intros F H N fuel. destruct (inverseErf ieee dsqrt dlog dexp derf fuel y) eqn:E; [| | |reflexivity].
  - apply inv_negative in E; [|exact F|exact H]. rewrite N in E. discriminate.
  - exfalso. revert E. unfold inverseErf. destruct (nle _ _); [discriminate|]. match goal with |- erf_loop ?A ?e ?f ?n ?a ?b ?c ?d ?g = _ -> _ => destruct (erf_loop_outcome A e f n a b c d g) as [E|(z & E)]; rewrite E; discriminate end.
  - exfalso. revert E. unfold inverseErf. destruct (nle _ _); [discriminate|]. match goal with |- erf_loop ?A ?e ?f ?n ?a ?b ?c ?d ?g = _ -> _ => destruct (erf_loop_outcome A e f n a b c d g) as [E|(z & E)]; rewrite E; discriminate end.
Qed.
Print Assumptions C77_negative_doubles_refuted.
Example C77_negative_case : inverseErf ieee (fun x => x) (fun _ => of_Z 1) (fun _ => of_Z 1) (fun x => if is_nan x then of_Z 0 else x) 200 (ddiv (of_Z (-1)) (of_Z 3)) = Fuel.
Proof. vm_compute. reflexivity. Qed.
(** So the normal quantile never answers for a probability below one half. *)
Theorem C77_quantile_refuted (dsqrt dlog dexp derf : double -> double) (p : double) :
  is_finite p = true -> (bpow radix2 (-54) < B2R p < / 2)%R -> (forall x, is_nan (derf x) = false) ->
  forall fuel, inverseUnitNormalCDF ieee dsqrt dlog dexp derf fuel p = Fuel.
Proof.
  intros F H N fuel. destruct (cdf_argument p F H) as (F' & H'). unfold inverseUnitNormalCDF. change (@nsub ieee (@nmul ieee (of_int 2) p) (of_int 1)) with (dsub (dmul (of_Z 2) p) (of_Z 1)).
  rewrite (C77_negative_doubles_refuted dsqrt dlog dexp derf _ F' H' N). reflexivity.
Qed.
Print Assumptions C77_quantile_refuted.
Example C77_quantile_refuted_case : (bpow radix2 (-54) < / 4 < / 2)%R.
Proof. change (/ 4)%R with (bpow radix2 (-2)). split; [apply bpow_lt; lia|]. change (bpow radix2 (-2)) with (/ 4)%R. lra. Qed.
