(** Numerical correctness of Base64_Model. *)
From Coq Require Import List ZArith Lia Bool.
From Coq Require Import ZifyBool ZifyNat.
From Verif Require Import Common CommonFacts Base64_Spec Base64_Model.
Import ListNotations.
Local Open Scope Z_scope.

Notation len l := (Z.of_nat (length l)).

(** ** Numerals *)
Lemma fold_numeral b ds a : fold_left (fun a d => a * b + d) ds a = a * b ^ len ds + numeral b ds.
Proof.
  unfold numeral. revert a; induction ds as [|d ds IH]; intros a; cbn [fold_left length].
  - rewrite Z.pow_0_r. lia.
  - rewrite IH, (IH (0 * b + d)). rewrite Nat2Z.inj_succ, Z.pow_succ_r by lia. ring.
Qed.
Lemma numeral_cons b d ds : numeral b (d :: ds) = d * b ^ len ds + numeral b ds.
Proof. unfold numeral at 1. cbn [fold_left]. rewrite fold_numeral. lia. Qed.
Lemma numeral_nil b : numeral b [] = 0. Proof. reflexivity. Qed.
Lemma numeral_app b l1 l2 : numeral b (l1 ++ l2) = numeral b l1 * b ^ len l2 + numeral b l2.
Proof. unfold numeral at 1. rewrite fold_left_app. fold (numeral b l1). apply fold_numeral. Qed.
Lemma numeral_range b ds : 0 < b -> digits_of b ds -> 0 <= numeral b ds < b ^ len ds.
Proof.
  intros Hb H. induction H as [|d ds Hd H IH]; [cbn; lia|]. rewrite numeral_cons. cbn [length]. rewrite Nat2Z.inj_succ, Z.pow_succ_r by lia. nia.
Qed.
Lemma numeral_inj b l1 l2 : 0 < b -> digits_of b l1 -> digits_of b l2 -> length l1 = length l2 -> numeral b l1 = numeral b l2 -> l1 = l2.
Proof.
  intros Hb H1. revert l2. induction H1 as [|d ds Hd H1 IH]; intros [|e es] H2 L E; try discriminate; auto.
  inversion H2; subst. injection L as L. rewrite !numeral_cons in E. rewrite <- L in E.
  assert (R1 := numeral_range b ds Hb H1). assert (R2 := numeral_range b es Hb H4). rewrite <- L in R2.
  assert (d = e) by nia. subst. f_equal. apply IH; auto. nia.
Qed.
Lemma lex_numeral b l1 l2 : 0 < b -> digits_of b l1 -> digits_of b l2 -> length l1 = length l2 -> lex_compare l1 l2 = (numeral b l1 ?= numeral b l2).
Proof.
  intros Hb H1. revert l2. induction H1 as [|d ds Hd H1 IH]; intros [|e es] H2 L; try discriminate; auto.
  inversion H2; subst. injection L as L. cbn [lex_compare]. rewrite !numeral_cons. rewrite <- L.
  assert (R1 := numeral_range b ds Hb H1). assert (R2 := numeral_range b es Hb H4). rewrite <- L in R2.
  destruct (Z.compare_spec d e) as [E|E|E].
  - subst e. rewrite IH by auto. destruct (Z.compare_spec (numeral b ds) (numeral b es)) as [X|X|X]; symmetry; [apply Z.compare_eq_iff|apply Z.compare_lt_iff|apply Z.compare_gt_iff]; lia.
  - symmetry. apply Z.compare_lt_iff. nia.
  - symmetry. apply Z.compare_gt_iff. nia.
Qed.

(** ** The alphabet *)
Lemma translate_digit d : translate d = digit_char d. Proof. reflexivity. Qed.

Definition small : list Z := map Z.of_nat (seq 0 64).
Lemma in_small d : 0 <= d < 64 -> In d small.
Proof. intros H. unfold small. apply in_map_iff. exists (Z.to_nat d). split; [lia|]. apply in_seq. lia. Qed.

Lemma detranslate_digit d : 0 <= d < 64 -> detranslate (digit_char d) = Ok d.
Proof.
  intros H. assert (X : forallb (fun d => match detranslate (digit_char d) with Ok v => v =? d | _ => false end) small = true) by (vm_compute; reflexivity).
  rewrite forallb_forall in X. specialize (X d (in_small d H)). destruct (detranslate (digit_char d)); try discriminate. f_equal. lia.
Qed.
Lemma digit_compare d e : 0 <= d < 64 -> 0 <= e < 64 -> (digit_char d ?= digit_char e) = (d ?= e).
Proof.
  intros Hd He.
  assert (X : forallb (fun d => forallb (fun e => match digit_char d ?= digit_char e, d ?= e with Eq, Eq | Lt, Lt | Gt, Gt => true | _, _ => false end) small) small = true) by (vm_compute; reflexivity).
  rewrite forallb_forall in X. specialize (X d (in_small d Hd)). rewrite forallb_forall in X. specialize (X e (in_small e He)). cbv beta in X.
  destruct (digit_char d ?= digit_char e), (d ?= e); congruence.
Qed.
Lemma lex_chars l1 l2 : digits_of 64 l1 -> digits_of 64 l2 -> lex_compare (map digit_char l1) (map digit_char l2) = lex_compare l1 l2.
Proof.
  intros H1; revert l2; induction H1 as [|d ds Hd H1 IH]; intros [|e es] H2; cbn [map lex_compare]; auto. inversion H2; subst. rewrite digit_compare by auto.
  destruct (d ?= e); auto.
Qed.
Lemma numeral_unique s v w : base64_numeral s v -> base64_numeral s w -> v = w.
Proof.
  intros (d1 & -> & H1 & <-) (d2 & E & H2 & <-). f_equal. revert d2 E H2. induction H1 as [|d ds Hd H1 IH]; intros [|e es] E H2; try discriminate; auto.
  inversion H2; subst. injection E as E1 E2. f_equal; [|now apply IH]. apply Z.compare_eq_iff. rewrite <- digit_compare by auto. now apply Z.compare_eq_iff.
Qed.

(** ** Numbers *)
Lemma number_loop_spec n : forall number acc, 0 <= number ->
  exists ds, number_loop n number acc = map digit_char ds ++ acc /\ length ds = n /\ digits_of 64 ds /\ numeral 64 ds = number mod 64 ^ Z.of_nat n.
Proof.
  induction n as [|n IH]; intros number acc Hn; cbn [number_loop].
  - exists []. rewrite Z.pow_0_r, Z.mod_1_r. repeat split; auto. constructor.
  - destruct (IH (number / 2 ^ 6) (translate (number mod 64) :: acc)) as (ds & E & L & D & V); [apply Z.div_pos; lia|].
    exists (ds ++ [number mod 64]). rewrite E, map_app, <- app_assoc, app_length. split; [reflexivity|]. split; [|split].
    + cbn; lia.
    + apply Forall_app. split; auto. constructor; [|constructor]. apply Z.mod_pos_bound. lia.
    + rewrite numeral_app, V. cbn [length]. rewrite (Nat2Z.inj_succ n), Z.pow_succ_r by lia.
      change (2 ^ 6) with 64. change (64 ^ Z.of_nat 1) with 64. replace (numeral 64 [number mod 64]) with (number mod 64) by (cbn; lia).
      rewrite (Z.rem_mul_r number 64 (64 ^ Z.of_nat n)) by (try lia; apply Z.pow_pos_nonneg; lia). lia.
Qed.

Lemma encode_number_spec width dflt number digits : 0 <= width -> 0 < dflt -> 0 <= digits ->
  let d := if digits =? 0 then dflt else digits in
  exists s, encode_number width dflt number digits = Ok s /\ len s = d /\ base64_numeral s ((number mod 2 ^ width) mod 64 ^ d).
Proof.
  intros Hw Hd Hg d. unfold encode_number. fold d. assert (0 < d) by (unfold d; destruct (digits =? 0) eqn:E; lia).
  replace (d <? 0) with false by lia.
  destruct (number_loop_spec (Z.to_nat d) (number mod 2 ^ width) []) as (ds & E & L & D & V).
  { apply Z.mod_pos_bound. apply Z.pow_pos_nonneg; lia. }
  rewrite E, app_nil_r. eexists; split; [reflexivity|]. rewrite map_length. split; [lia|]. exists ds. repeat split; auto. rewrite V. f_equal. f_equal. lia.
Qed.

(** ** Data *)
Lemma pow_pos' a : 0 <= a -> 0 < 2 ^ a. Proof. intros; apply Z.pow_pos_nonneg; lia. Qed.
Lemma pow2_add a b : 0 <= a -> 0 <= b -> 2 ^ (a + b) = 2 ^ a * 2 ^ b. Proof. intros; apply Z.pow_add_r; lia. Qed.

Lemma split_div P B V M : 0 < B -> 0 < M -> 0 <= V < B -> (P * B + V) / (M * B) = P / M /\ (P * B + V) mod (M * B) = (P mod M) * B + V.
Proof.
  intros HB HM HV. assert (E := Z.div_mod P M ltac:(lia)). assert (R := Z.mod_pos_bound P M HM).
  split.
  - symmetry. apply (Z.div_unique_pos _ _ _ ((P mod M) * B + V)); nia.
  - symmetry. apply (Z.mod_unique_pos _ _ (P / M)); nia.
Qed.

(** shifting the 6 (8) top bits out of trans_buf = P * 2^(32-bits) *)
Lemma take_bits k P bits : 0 < k -> k <= bits <= 32 -> 0 <= P < 2 ^ bits ->
  (P * 2 ^ (32 - bits)) / 2 ^ (32 - k) = P / 2 ^ (bits - k)
  /\ w32 (P * 2 ^ (32 - bits) * 2 ^ k) = (P mod 2 ^ (bits - k)) * 2 ^ (32 - (bits - k)).
Proof.
  intros Hk Hb HP. assert (X := pow_pos' (bits - k)). assert (Y := pow_pos' (32 - bits)). assert (W := pow_pos' k). split.
  - replace (32 - k) with ((bits - k) + (32 - bits)) by lia. rewrite pow2_add by lia.
    now rewrite Z.div_mul_cancel_r by lia.
  - unfold w32. replace (P * 2 ^ (32 - bits) * 2 ^ k) with (P * 2 ^ (32 - (bits - k))).
    2: { replace (32 - (bits - k)) with ((32 - bits) + k) by lia. rewrite pow2_add by lia. ring. }
    replace (2 ^ 32) with (2 ^ (bits - k) * 2 ^ (32 - (bits - k))) by (rewrite <- pow2_add by lia; f_equal; lia).
    apply Z.mul_mod_distr_r; [lia|]. assert (Q := pow_pos' (32 - (bits - k))). lia.
Qed.

Lemma add_bits k P c bits : 0 <= bits -> 0 <= k -> bits + k <= 32 -> 0 <= P < 2 ^ bits -> 0 <= c < 2 ^ k ->
  w32 (P * 2 ^ (32 - bits) + w32 (c * 2 ^ (32 - k - bits))) = (P * 2 ^ k + c) * 2 ^ (32 - (bits + k)) /\ 0 <= P * 2 ^ k + c < 2 ^ (bits + k).
Proof.
  intros Hb Hk Hs HP Hc. assert (X := pow_pos' bits Hb). assert (Y := pow_pos' k Hk). assert (W := pow_pos' (32 - (bits + k))).
  assert (R : 0 <= P * 2 ^ k + c < 2 ^ (bits + k)) by (rewrite pow2_add by lia; nia). split; auto.
  replace (32 - k - bits) with (32 - (bits + k)) by lia. replace (32 - bits) with (k + (32 - (bits + k))) by lia. rewrite pow2_add by lia.
  assert (T : 2 ^ 32 = 2 ^ (bits + k) * 2 ^ (32 - (bits + k))) by (rewrite <- pow2_add by lia; f_equal; lia).
  assert (T2 : 2 ^ (bits + k) = 2 ^ bits * 2 ^ k) by (apply pow2_add; lia).
  unfold w32. rewrite (Z.mod_small (c * _)) by nia. rewrite Z.mod_small by nia. ring.
Qed.

Lemma div_step k X tb n : 0 < k -> k <= tb -> 0 <= n -> 0 <= X ->
  (X / 2 ^ (tb - k)) * (2 ^ k) ^ n + (X mod 2 ^ (tb - k)) * (2 ^ k) ^ n / 2 ^ (tb - k) = X * (2 ^ k) ^ (n + 1) / 2 ^ tb.
Proof.
  intros Hk Ht Hn HX. assert (M := pow_pos' (tb - k)). assert (K := pow_pos' k).
  rewrite Z.pow_add_r, Z.pow_1_r by lia. replace tb with ((tb - k) + k) at 4 by lia. rewrite pow2_add by lia.
  rewrite Z.mul_assoc, Z.div_mul_cancel_r by lia.
  rewrite (Z.div_mod X (2 ^ (tb - k))) at 3 by lia.
  replace ((2 ^ (tb - k) * (X / 2 ^ (tb - k)) + X mod 2 ^ (tb - k)) * (2 ^ k) ^ n)
    with (X mod 2 ^ (tb - k) * (2 ^ k) ^ n + (X / 2 ^ (tb - k) * (2 ^ k) ^ n) * 2 ^ (tb - k)) by ring.
  rewrite Z.div_add by lia. lia.
Qed.

Lemma emit_step k j P b m V n : 0 < k -> 0 <= j -> 0 <= m -> 0 <= n -> k <= b -> 0 <= P -> 0 <= V < (2 ^ j) ^ m ->
  (P / 2 ^ (b - k)) * (2 ^ k) ^ n + ((P mod 2 ^ (b - k)) * (2 ^ j) ^ m + V) * (2 ^ k) ^ n / 2 ^ (b - k + j * m)
  = (P * (2 ^ j) ^ m + V) * (2 ^ k) ^ (n + 1) / 2 ^ (b + j * m).
Proof.
  intros Hk Hj Hm Hn Hb HP HV.
  assert (B : 0 < (2 ^ j) ^ m) by lia. assert (J : 0 <= j * m) by (apply Z.mul_nonneg_nonneg; lia).
  assert (N : 0 <= P * (2 ^ j) ^ m + V) by (apply Z.add_nonneg_nonneg; [apply Z.mul_nonneg_nonneg; lia|lia]).
  assert (EB : (2 ^ j) ^ m = 2 ^ (j * m)) by (symmetry; apply Z.pow_mul_r; lia).
  destruct (split_div P ((2 ^ j) ^ m) V (2 ^ (b - k)) B ltac:(apply pow_pos'; lia) HV) as (S1 & S2).
  assert (EM : 2 ^ (b - k + j * m) = 2 ^ (b - k) * (2 ^ j) ^ m) by (rewrite EB; clear - Hb J; apply pow2_add; lia).
  rewrite <- div_step; [|assumption|clear - Hb J; lia|assumption|assumption]. replace (b + j * m - k) with (b - k + j * m) by ring.
  rewrite EM, S1, S2. reflexivity.
Qed.

Lemma spare_zero n b : encode_spare n 0 b = map digit_char (repeat 0 n).
Proof.
  revert b; induction n as [|n IH]; intros b; cbn [encode_spare]; auto.
  destruct (0 <? b); [cbn; now f_equal|]. clear. cbn. f_equal. induction n; cbn; f_equal; auto.
Qed.
Lemma zeros_ok n : digits_of 64 (repeat 0 n) /\ numeral 64 (repeat 0 n) = 0.
Proof. induction n as [|n (IH1 & IH2)]; [split; [constructor|reflexivity]|]. cbn [repeat]. split; [constructor; auto; lia|]. rewrite numeral_cons, IH2. lia. Qed.

Lemma spare_spec n P bits : 0 <= bits <= 7 -> 0 <= P < 2 ^ bits ->
  exists ds, encode_spare n (P * 2 ^ (32 - bits)) bits = map digit_char ds /\ length ds = n /\ digits_of 64 ds
    /\ numeral 64 ds = P * 64 ^ Z.of_nat n / 2 ^ bits.
Proof.
  revert P bits. induction n as [|n IH]; intros P bits Hb HP.
  - exists []. repeat split; auto; [constructor|]. cbn. rewrite Z.mul_1_r. symmetry. apply Z.div_small; lia.
  - cbn [encode_spare]. destruct (0 <? bits) eqn:E0.
    + destruct (6 <=? bits) eqn:E6.
      * destruct (take_bits 6 P bits ltac:(lia) ltac:(lia) HP) as (T1 & T2). rewrite T1, T2.
        assert (M := pow_pos' (bits - 6)). assert (Q := Z.mod_pos_bound P (2 ^ (bits - 6)) ltac:(lia)).
        replace (w32 (bits - 6)) with (bits - 6) by (unfold w32; rewrite Z.mod_small; lia).
        destruct (IH (P mod 2 ^ (bits - 6)) (bits - 6) ltac:(lia) ltac:(lia)) as (ds & E & L & D & V). rewrite E.
        assert (R : 0 <= P / 2 ^ (bits - 6) < 64).
        { split; [apply Z.div_pos; lia|]. apply Z.div_lt_upper_bound; [lia|]. change 64 with (2 ^ 6). rewrite <- pow2_add by lia. replace (bits - 6 + 6) with bits by lia. lia. }
        exists (P / 2 ^ (bits - 6) :: ds). split; [reflexivity|]. split; [cbn; lia|]. split; [constructor; auto|].
        rewrite numeral_cons, V, L. rewrite Nat2Z.inj_succ. unfold Z.succ. change 64 with (2 ^ 6).
        apply div_step; lia.
      * (* fewer than six bits left *)
        assert (Hp : 0 <= P * 2 ^ (6 - bits) < 64).
        { assert (X := pow_pos' (6 - bits)). assert (E64 : 2 ^ bits * 2 ^ (6 - bits) = 64) by (rewrite <- pow2_add by lia; replace (bits + (6 - bits)) with 6 by lia; reflexivity). nia. }
        assert (T1 : P * 2 ^ (32 - bits) = (P * 2 ^ (6 - bits)) * 2 ^ 26) by (replace (32 - bits) with ((6 - bits) + 26) by lia; rewrite pow2_add by lia; ring).
        replace (P * 2 ^ (32 - bits) / 2 ^ (32 - 6)) with (P * 2 ^ (6 - bits)) by (rewrite T1; symmetry; apply Z.div_mul; lia).
        replace (w32 (P * 2 ^ (32 - bits) * 2 ^ 6)) with 0.
        2:{ rewrite T1. unfold w32. rewrite <- Z.mul_assoc. change (2 ^ 26 * 2 ^ 6) with (2 ^ 32). symmetry. apply Z.mod_mul. lia. }
        rewrite spare_zero. destruct (zeros_ok n) as (Z1 & Z2).
        exists (P * 2 ^ (6 - bits) :: repeat 0 n). split; [reflexivity|]. split; [cbn; rewrite repeat_length; lia|]. split; [constructor; auto|].
        rewrite numeral_cons, Z2, repeat_length, Z.add_0_r. rewrite Nat2Z.inj_succ, Z.pow_succ_r by lia.
        change 64 with (2 ^ 6) at 2. replace (2 ^ 6) with (2 ^ (6 - bits) * 2 ^ bits) by (rewrite <- pow2_add by lia; f_equal; lia).
        replace (P * (2 ^ (6 - bits) * 2 ^ bits * 64 ^ Z.of_nat n)) with (P * 2 ^ (6 - bits) * 64 ^ Z.of_nat n * 2 ^ bits) by ring.
        rewrite Z.div_mul; [reflexivity|]. assert (X := pow_pos' bits). lia.
    + assert (bits = 0) by lia. subst bits. assert (P = 0) by (cbn in HP; lia). subst P. destruct (zeros_ok (S n)) as (Z1 & Z2).
      exists (repeat 0 (S n)). split; [|split; [apply repeat_length|split; [exact Z1|rewrite Z2; reflexivity]]].
      clear. induction (S n) as [|m IH]; cbn; f_equal; auto.
Qed.

Lemma pow256 n : 0 <= n -> 256 ^ n = 2 ^ (8 * n).
Proof. intros. change 256 with (2 ^ 8). rewrite <- Z.pow_mul_r by lia. reflexivity. Qed.
Lemma pow64 n : 0 <= n -> 64 ^ n = 2 ^ (6 * n).
Proof. intros. change 64 with (2 ^ 6). rewrite <- Z.pow_mul_r by lia. reflexivity. Qed.

Lemma encode_loops_spec n : forall data P bits, byte_string data -> 0 <= bits <= 7 -> 0 <= P < 2 ^ bits ->
  exists ds, encode_loops n data (P * 2 ^ (32 - bits)) bits = map digit_char ds /\ length ds = n /\ digits_of 64 ds
    /\ numeral 64 ds = (P * 256 ^ len data + numeral 256 data) * 64 ^ Z.of_nat n / 2 ^ (bits + 8 * len data).
Proof.
  unfold encode_loops. induction n as [|n IH]; intros data P bits Hd Hb HP.
  - exists []. repeat split; auto; try constructor. cbn [encode_first Z.of_nat]. rewrite Z.pow_0_r, Z.mul_1_r, numeral_nil.
    symmetry. apply Z.div_small. assert (X := numeral_range 256 data ltac:(lia) Hd). rewrite pow2_add, <- pow256 by lia. nia.
  - destruct data as [|c r].
    { cbn [encode_first app length Z.of_nat]. rewrite numeral_nil, Z.mul_0_r, !Z.add_0_r, Z.pow_0_r, Z.mul_1_r. now apply spare_spec. }
    cbn [encode_first]. inversion Hd as [|? ? Hc Hr]; subst.
    (* common continuation: pending P1 over bits1 in 6..15, remaining data d1 *)
    assert (Step : forall d1 P1 bits1, byte_string d1 -> 6 <= bits1 <= 13 -> 0 <= P1 < 2 ^ bits1 ->
      exists ds, (let '(out, (n', tb, b)) := let '(out, fin) := encode_first n d1 (w32 (P1 * 2 ^ (32 - bits1) * 2 ^ 6)) (w32 (bits1 - 6)) in
                    (translate (P1 * 2 ^ (32 - bits1) / 2 ^ (32 - 6)) :: out, fin) in out ++ encode_spare n' tb b) = map digit_char ds
        /\ length ds = S n /\ digits_of 64 ds
        /\ numeral 64 ds = (P1 * 256 ^ len d1 + numeral 256 d1) * 64 ^ Z.of_nat (S n) / 2 ^ (bits1 + 8 * len d1)).
    { clear IH HP Hb Hd Hc Hr P bits c r data || clear P bits HP Hb. intros d1 P1 bits1 Hd1 Hb1 HP1.
      destruct (take_bits 6 P1 bits1 ltac:(lia) ltac:(lia) HP1) as (T1 & T2). rewrite T1, T2.
      assert (M := pow_pos' (bits1 - 6)). assert (Q := Z.mod_pos_bound P1 (2 ^ (bits1 - 6)) ltac:(lia)).
      replace (w32 (bits1 - 6)) with (bits1 - 6) by (unfold w32; rewrite Z.mod_small; lia).
      destruct (IH d1 (P1 mod 2 ^ (bits1 - 6)) (bits1 - 6) Hd1 ltac:(lia) ltac:(lia)) as (ds & E & L & D & V).
      destruct (encode_first n d1 _ _) as (out & ((n' & tb) & b)). cbn [app]. rewrite E.
      assert (R : 0 <= P1 / 2 ^ (bits1 - 6) < 64).
      { split; [apply Z.div_pos; lia|]. apply Z.div_lt_upper_bound; [lia|]. change 64 with (2 ^ 6). rewrite <- pow2_add by lia. replace (bits1 - 6 + 6) with bits1 by lia. lia. }
      exists (P1 / 2 ^ (bits1 - 6) :: ds). split; [reflexivity|]. split; [cbn; lia|]. split; [constructor; auto|].
      rewrite numeral_cons, V, L. rewrite Nat2Z.inj_succ. unfold Z.succ.
      assert (Rv := numeral_range 256 d1 ltac:(lia) Hd1).
      apply (emit_step 6 8 P1 bits1 (len d1) (numeral 256 d1) (Z.of_nat n)); auto; lia. }
    destruct (bits <? 6) eqn:E6.
    + destruct (add_bits 8 P c bits ltac:(lia) ltac:(lia) ltac:(lia) HP Hc) as (A1 & A2). rewrite A1.
      destruct (Step r (P * 2 ^ 8 + c) (bits + 8) Hr ltac:(lia) A2) as (ds & E & L & D & V). rewrite E. exists ds. split; auto. split; auto. split; auto.
      rewrite V. cbn [length]. f_equal; [|f_equal; lia]. f_equal. rewrite numeral_cons. rewrite (Nat2Z.inj_succ (length r)), Z.pow_succ_r by lia. change (2 ^ 8) with 256. ring.
    + destruct (Step (c :: r) P bits Hd ltac:(lia) HP) as (ds & E & L & D & V). exists ds. split; auto.
Qed.

Lemma encode_data_spec data d : byte_string data -> 0 <= d -> d = encode_digits (length data) d \/ True ->
  exists ds, encode_loops (Z.to_nat d) data 0 0 = map digit_char ds /\ len ds = d /\ digits_of 64 ds
    /\ numeral 64 ds = numeral 256 data * 64 ^ d / 2 ^ (8 * len data).
Proof.
  intros Hd Hn _. destruct (encode_loops_spec (Z.to_nat d) data 0 0 Hd ltac:(lia) ltac:(cbn; lia)) as (ds & E & L & D & V).
  exists ds. rewrite Z.mul_0_l in E. split; auto. split; [lia|]. split; auto. rewrite V. rewrite Z.mul_0_l, !Z.add_0_l. now rewrite Z2Nat.id by lia.
Qed.

Lemma auto_digits n : Z.of_nat n < 2 ^ 28 -> encode_digits n 0 = (8 * Z.of_nat n + 5) / 6.
Proof.
  intros H. unfold encode_digits. cbn [Z.eqb]. unfold s32. rewrite Z.mod_small by lia.
  replace (Z.of_nat n * 8 <? 2 ^ 31) with true by lia.
  destruct (Z.rem (Z.of_nat n * 8) 6 =? 0) eqn:E; Z.to_euclidean_division_equations; lia.
Qed.

(** ** Decoding *)
Lemma decode_loop_spec : forall ds k P bits, digits_of 64 ds -> 0 <= bits < 8 -> 0 <= P < 2 ^ bits ->
  8 * Z.of_nat k <= bits + 6 * len ds ->
  exists out, decode_loop (map digit_char ds) k (P * 2 ^ (32 - bits)) bits = Ok out /\ length out = k /\ byte_string out
    /\ numeral 256 out = (P * 64 ^ len ds + numeral 64 ds) * 256 ^ Z.of_nat k / 2 ^ (bits + 6 * len ds).
Proof.
  induction ds as [|d ds IH]; intros k P bits Hd Hb HP Hk.
  - cbn [length Z.of_nat] in Hk. assert (k = O) by lia. subst k. exists []. cbn [map decode_loop repeat length Z.of_nat]. split; auto. split; auto. split; [constructor|].
    rewrite !numeral_nil, Z.pow_0_r, Z.mul_1_r, Z.mul_0_r, !Z.add_0_r. cbn [Z.pow Z.mul]. rewrite Z.mul_1_r. symmetry. apply Z.div_small. lia.
  - inversion Hd as [|? ? Hd0 Hds]; subst. cbn [map decode_loop].
    assert (Rn := numeral_range 64 ds ltac:(lia) Hds).
    destruct k as [|k].
    { exists []. split; auto. split; auto. split; [constructor|]. cbn [Z.of_nat]. rewrite Z.pow_0_r, Z.mul_1_r, numeral_nil. symmetry. apply Z.div_small.
      assert (R2 := numeral_range 64 (d :: ds) ltac:(lia) Hd). rewrite pow2_add, <- pow64 by lia. nia. }
    rewrite detranslate_digit by auto. cbn [bind].
    destruct (add_bits 6 P d bits ltac:(lia) ltac:(lia) ltac:(lia) HP Hd0) as (A1 & A2). rewrite A1.
    set (P1 := P * 2 ^ 6 + d) in *. set (b1 := bits + 6) in *.
    assert (EX : P * 64 ^ len (d :: ds) + numeral 64 (d :: ds) = P1 * 64 ^ len ds + numeral 64 ds).
    { rewrite numeral_cons. cbn [length]. rewrite (Nat2Z.inj_succ (length ds)), Z.pow_succ_r by lia. unfold P1. change (2 ^ 6) with 64. ring. }
    rewrite EX. replace (bits + 6 * len (d :: ds)) with (b1 + 6 * len ds) by (unfold b1; cbn [length]; lia).
    cbn [length] in Hk.
    destruct (8 <=? b1) eqn:E8.
    + destruct (take_bits 8 P1 b1 ltac:(lia) ltac:(lia) A2) as (T1 & T2). rewrite T2.
      assert (M := pow_pos' (b1 - 8)). assert (Q := Z.mod_pos_bound P1 (2 ^ (b1 - 8)) ltac:(lia)).
      destruct (IH k (P1 mod 2 ^ (b1 - 8)) (b1 - 8) Hds ltac:(lia) ltac:(lia) ltac:(lia)) as (out & E & L & D & V).
      rewrite E. cbn [bind]. rewrite T1.
      assert (R : 0 <= P1 / 2 ^ (b1 - 8) < 256).
      { split; [apply Z.div_pos; lia|]. apply Z.div_lt_upper_bound; [lia|]. change 256 with (2 ^ 8). rewrite <- pow2_add by lia. replace (b1 - 8 + 8) with b1 by lia. lia. }
      eexists; split; [reflexivity|]. split; [cbn; lia|]. split; [constructor; auto|].
      rewrite numeral_cons, V, L. rewrite Nat2Z.inj_succ. unfold Z.succ.
      apply (emit_step 8 6 P1 b1 (len ds) (numeral 64 ds) (Z.of_nat k)); auto; lia.
    + destruct (IH (S k) P1 b1 Hds ltac:(lia) A2 ltac:(lia)) as (out & E & L & D & V). exists out. auto.
Qed.

Lemma decode_spec ds : digits_of 64 ds -> len ds < 2 ^ 28 ->
  let k := 6 * len ds / 8 in
  exists out, decode (map digit_char ds) = Ok out /\ len out = k /\ byte_string out
    /\ numeral 256 out = numeral 64 ds / 2 ^ (6 * len ds - 8 * k).
Proof.
  intros Hd Hl k. unfold decode. rewrite map_length. assert (Hk : 0 <= k <= len ds) by (unfold k; Z.to_euclidean_division_equations; lia).
  assert (Hk8 : 8 * k <= 6 * len ds) by (unfold k; Z.to_euclidean_division_equations; lia).
  replace (Z.of_nat (length ds) * 6 / 8) with k by (unfold k; f_equal; lia).
  unfold s32. rewrite Z.mod_small by lia. replace (k <? 2 ^ 31) with true by lia. replace (k <? 0) with false by lia.
  destruct (decode_loop_spec ds (Z.to_nat k) 0 0 Hd ltac:(lia) ltac:(cbn; lia) ltac:(lia)) as (out & E & L & D & V).
  rewrite Z.mul_0_l in E. exists out. split; auto. split; [lia|]. split; auto. rewrite V, Z.mul_0_l, !Z.add_0_l, Z2Nat.id by lia.
  rewrite pow256 by lia. replace (6 * len ds) with ((6 * len ds - 8 * k) + 8 * k) at 1 by lia. rewrite pow2_add by lia.
  apply Z.div_mul_cancel_r; [assert (X := pow_pos' (6 * len ds - 8 * k)); lia|assert (X := pow_pos' (8 * k)); lia].
Qed.

(** ** encodeBackward *)
(** little-endian value of the reversed data *)
Fixpoint le_value (l : list Z) : Z := match l with [] => 0 | c :: r => c + 256 * le_value r end.
Lemma le_value_rev l : le_value (rev l) = numeral 256 l.
Proof.
  assert (A : forall a b, le_value (a ++ b) = le_value a + 256 ^ len a * le_value b).
  { induction a as [|x a IH]; intros b; cbn [le_value app length]. { cbn [Z.of_nat]. rewrite Z.pow_0_r; lia. } rewrite IH, Nat2Z.inj_succ, Z.pow_succ_r by lia. ring. }
  induction l as [|c l IH]; auto. cbn [rev]. rewrite A, IH, numeral_cons, rev_length. cbn [le_value]. ring.
Qed.

Lemma mod_step X n : 0 <= n -> X mod 64 ^ (n + 1) = X mod 64 + 64 * ((X / 64) mod 64 ^ n).
Proof. intros Hn. rewrite Z.pow_add_r, Z.pow_1_r by lia. rewrite (Z.mul_comm (64 ^ n)). rewrite Z.rem_mul_r by (try lia; apply Z.pow_pos_nonneg; lia). lia. Qed.

Lemma backward_spec : forall n rdata P bits acc, byte_string rdata -> 0 <= bits <= 7 -> 0 <= P < 2 ^ bits ->
  6 * Z.of_nat n <= bits + 8 * len rdata ->
  exists ds, backward_loop n rdata P bits acc = Ok (map digit_char ds ++ acc) /\ length ds = n /\ digits_of 64 ds
   /\ numeral 64 ds = (P + 2 ^ bits * le_value rdata) mod 64 ^ Z.of_nat n.
Proof.
  induction n as [|n IH]; intros rdata P bits acc Hd Hb HP Hk; cbn [backward_loop].
  - exists []. cbn [Z.of_nat]. rewrite Z.pow_0_r, Z.mod_1_r. repeat split; auto. constructor.
  - assert (Step : forall r1 P1 b1, byte_string r1 -> 6 <= b1 <= 13 -> 0 <= P1 < 2 ^ b1 -> 6 * Z.of_nat (S n) <= b1 + 8 * len r1 ->
      exists ds, backward_loop n r1 (P1 / 2 ^ 6) (w32 (b1 - 6)) (translate (P1 mod 64) :: acc) = Ok (map digit_char ds ++ acc) /\ length ds = S n /\ digits_of 64 ds
       /\ numeral 64 ds = (P1 + 2 ^ b1 * le_value r1) mod 64 ^ Z.of_nat (S n)).
    { intros r1 P1 b1 Hr1 Hb1 HP1 Hk1. replace (w32 (b1 - 6)) with (b1 - 6) by (unfold w32; rewrite Z.mod_small; lia).
      assert (Eb : 2 ^ b1 = 64 * 2 ^ (b1 - 6)) by (change 64 with (2 ^ 6); rewrite <- pow2_add by lia; f_equal; lia).
      assert (R : 0 <= P1 / 2 ^ 6 < 2 ^ (b1 - 6)). { split; [apply Z.div_pos; lia|]. apply Z.div_lt_upper_bound; [lia|]. change (2 ^ 6) with 64. lia. }
      destruct (IH r1 (P1 / 2 ^ 6) (b1 - 6) (translate (P1 mod 64) :: acc) Hr1 ltac:(lia) R ltac:(lia)) as (ds & E & L & D & V).
      rewrite E. exists (ds ++ [P1 mod 64]). rewrite map_app, <- app_assoc, app_length. split; [reflexivity|]. split; [cbn; lia|]. split.
      { apply Forall_app. split; auto. constructor; [|constructor]. apply Z.mod_pos_bound; lia. }
      rewrite numeral_app, V. cbn [length]. change (64 ^ Z.of_nat 1) with 64. replace (numeral 64 [P1 mod 64]) with (P1 mod 64) by (cbn; lia).
      rewrite Nat2Z.inj_succ. unfold Z.succ. rewrite mod_step by lia. rewrite Eb.
      replace (P1 + 64 * 2 ^ (b1 - 6) * le_value r1) with (P1 + (2 ^ (b1 - 6) * le_value r1) * 64) by ring.
      rewrite Z.mod_add, Z.div_add by lia. change (2 ^ 6) with 64. ring. }
    destruct (bits <? 6) eqn:E6.
    + destruct rdata as [|c r]. { cbn [length] in Hk. lia. } cbn [bind]. inversion Hd as [|? ? Hc Hr]; subst.
      assert (Hx := pow_pos' bits ltac:(lia)). assert (Hp5 : 2 ^ bits <= 2 ^ 5) by (apply Z.pow_le_mono_r; lia).
      assert (W1 : w32 (P + w32 (c * 2 ^ bits)) = P + c * 2 ^ bits). { unfold w32. rewrite (Z.mod_small (c * _)) by nia. rewrite Z.mod_small by nia. reflexivity. }
      rewrite W1. destruct (Step r (P + c * 2 ^ bits) (bits + 8) Hr ltac:(lia)) as (ds & E & L & D & V).
      { rewrite pow2_add by lia. change (2 ^ 8) with 256. nia. }
      { cbn [length] in Hk. lia. }
      exists ds. split; auto. split; auto. split; auto. rewrite V. f_equal. cbn [le_value]. rewrite pow2_add by lia. change (2 ^ 8) with 256. ring.
    + cbn [bind]. apply Step; auto; lia.
Qed.
