(** Property theorems for ASCIIbeticalB64 (C17, C18, C19, C58). *)
From Coq Require Import List ZArith Lia Bool String.
From Coq Require Import ZifyBool ZifyNat.
From Verif Require Import Common Base64_Spec Base64_Model Base64_Proofs.
Import ListNotations.
Local Open Scope string_scope.
Local Open Scope list_scope.
Local Open Scope Z_scope.

(** C17. Encoding a number gives the base-64 numeral, of the requested List.length,
    of the number modulo 64^digits; the automatic lengths 6 and 11 lose nothing. *)
Theorem C17_number_encoding :
  forall number digits : Z, 0 <= digits ->
  (exists s, encode32 number digits = Ok s
     /\ Z.of_nat (List.length s) = (if digits =? 0 then 6 else digits)
     /\ base64_numeral s ((number mod 2 ^ 32) mod 64 ^ (if digits =? 0 then 6 else digits)))
  /\ (exists s, encode64 number digits = Ok s
     /\ Z.of_nat (List.length s) = (if digits =? 0 then 11 else digits)
     /\ base64_numeral s ((number mod 2 ^ 64) mod 64 ^ (if digits =? 0 then 11 else digits))).
Proof. intros number digits H. split; apply encode_number_spec; lia. Qed.
Print Assumptions C17_number_encoding.

Lemma exact_digits v w d : 0 <= v < 2 ^ w -> 0 <= w <= 6 * d -> v mod 64 ^ d = v.
Proof. intros H Hd. apply Z.mod_small. rewrite pow64 by lia. assert (2 ^ w <= 2 ^ (6 * d)) by (apply Z.pow_le_mono_r; lia). lia. Qed.

(** With enough digits (in particular the automatic count) the numeral is the
    number itself, so the number can be read back. *)
Theorem C17_sufficient_digits :
  forall number digits : Z,
  (0 <= number < 2 ^ 32 -> digits = 0 \/ 6 <= digits -> exists s, encode32 number digits = Ok s /\ base64_numeral s number)
  /\ (0 <= number < 2 ^ 64 -> digits = 0 \/ 11 <= digits -> exists s, encode64 number digits = Ok s /\ base64_numeral s number).
Proof.
  intros number digits. split; intros Hn Hd.
  - destruct (C17_number_encoding number digits ltac:(lia)) as ((s & E & _ & V) & _). exists s. split; auto.
    rewrite (Z.mod_small number) in V by lia. rewrite (exact_digits _ 32) in V; auto. destruct (digits =? 0) eqn:E0; lia.
  - destruct (C17_number_encoding number digits ltac:(lia)) as (_ & s & E & _ & V). exists s. split; auto.
    rewrite (Z.mod_small number) in V by lia. rewrite (exact_digits _ 64) in V; auto. destruct (digits =? 0) eqn:E0; lia.
Qed.
Print Assumptions C17_sufficient_digits.

(** Reading the encoding of a number back with decode gives the leading whole
    bytes of the numeral; for 4 digits per 3 bytes that is the number itself. *)
Theorem C17_decode_number :
  forall (number k : Z), 0 <= number < 2 ^ 64 -> number < 2 ^ (24 * k) -> 0 < k < 2 ^ 20 ->
  exists s b, encode64 number (4 * k) = Ok s /\ decode s = Ok b /\ byte_string b
    /\ Z.of_nat (List.length b) = 3 * k /\ numeral 256 b = number.
Proof.
  intros number k Hn Hb Hk. destruct (C17_number_encoding number (4 * k) ltac:(lia)) as (_ & s & E & L & V).
  replace (4 * k =? 0) with false in * by lia. rewrite (Z.mod_small number) in V by lia.
  rewrite (exact_digits _ (24 * k)) in V by lia. destruct V as (ds & -> & D & V). rewrite map_length in L.
  destruct (decode_spec ds D ltac:(lia)) as (b & Eb & Lb & Db & Vb). exists (map digit_char ds), b. rewrite L in *.
  replace (6 * (4 * k) / 8) with (3 * k) in * by (replace (6 * (4 * k)) with (3 * k * 8) by lia; rewrite Z.div_mul; lia).
  repeat split; auto; try lia. rewrite Vb, V. replace (6 * (4 * k) - 8 * (3 * k)) with 0 by lia. apply Z.div_1_r.
Qed.
Print Assumptions C17_decode_number.

Example C17_run : encode32 4294967295 0 = Ok (codes "1zzzzz") /\ encode64 1000 4 = Ok (codes "++Dc")
  /\ decode (codes "++Dc") = Ok [0; 3; 232].
Proof. vm_compute. auto. Qed.

(** C18. With the same digit count, dictionary order of the encodings is the
    numeric order of what is encoded; sufficient digits assumed. *)
Theorem C18_number_order :
  forall a b digits sa sb,
  (0 <= a < 2 ^ 32 /\ 0 <= b < 2 ^ 32 /\ (digits = 0 \/ 6 <= digits) /\ encode32 a digits = Ok sa /\ encode32 b digits = Ok sb)
  \/ (0 <= a < 2 ^ 64 /\ 0 <= b < 2 ^ 64 /\ (digits = 0 \/ 11 <= digits) /\ encode64 a digits = Ok sa /\ encode64 b digits = Ok sb) ->
  lex_compare sa sb = (a ?= b).
Proof.
  assert (Main : forall a b sa sb, base64_numeral sa a -> base64_numeral sb b -> List.length sa = List.length sb -> lex_compare sa sb = (a ?= b)).
  { intros a b sa sb (d1 & -> & D1 & <-) (d2 & -> & D2 & <-) L. rewrite !map_length in L. rewrite lex_chars by auto. apply lex_numeral; auto. lia. }
  intros a b digits sa sb [(Ha & Hb & Hd & Ea & Eb)|(Ha & Hb & Hd & Ea & Eb)].
  - destruct (C17_sufficient_digits a digits) as (Xa & _). destruct (Xa Ha Hd) as (s & E & V).
    destruct (C17_sufficient_digits b digits) as (Xb & _). destruct (Xb Hb Hd) as (t & F & W).
    destruct (C17_number_encoding a digits ltac:(lia)) as ((s' & E' & L & _) & _). destruct (C17_number_encoding b digits ltac:(lia)) as ((t' & F' & L' & _) & _).
    assert (s = sa /\ s' = sa /\ t = sb /\ t' = sb) as (-> & -> & -> & ->) by (repeat split; congruence). apply Main; auto. lia.
  - destruct (C17_sufficient_digits a digits) as (_ & Xa). destruct (Xa Ha Hd) as (s & E & V).
    destruct (C17_sufficient_digits b digits) as (_ & Xb). destruct (Xb Hb Hd) as (t & F & W).
    destruct (C17_number_encoding a digits ltac:(lia)) as (_ & (s' & E' & L & _)). destruct (C17_number_encoding b digits ltac:(lia)) as (_ & (t' & F' & L' & _)).
    assert (s = sa /\ s' = sa /\ t = sb /\ t' = sb) as (-> & -> & -> & ->) by (repeat split; congruence). apply Main; auto. lia.
Qed.
Print Assumptions C18_number_order.

Lemma encode_data_numeral data digits : byte_string data -> Z.of_nat (List.length data) < 2 ^ 28 -> 0 <= digits -> digits = 0 \/ 8 * Z.of_nat (List.length data) <= 6 * digits ->
  let d := if digits =? 0 then (8 * Z.of_nat (List.length data) + 5) / 6 else digits in
  exists ds, encode_data data digits = Ok (map digit_char ds) /\ Z.of_nat (List.length ds) = d /\ digits_of 64 ds
    /\ numeral 64 ds = numeral 256 data * 2 ^ (6 * d - 8 * Z.of_nat (List.length data)) /\ 0 <= 6 * d - 8 * Z.of_nat (List.length data)
    /\ (digits = 0 -> 6 * d - 8 * Z.of_nat (List.length data) < 6).
Proof.
  intros Hd Hl H0 Hs d. unfold encode_data.
  assert (Ed : encode_digits (List.length data) digits = d). { unfold d. destruct (digits =? 0) eqn:E; [|unfold encode_digits; now rewrite E]. replace digits with 0 by lia. now apply auto_digits. }
  rewrite Ed. assert (Hdp : 0 <= 6 * d - 8 * Z.of_nat (List.length data)) by (unfold d; destruct (digits =? 0) eqn:E; [Z.to_euclidean_division_equations; lia|lia]).
  replace (d <? 0) with false by lia.
  destruct (encode_data_spec data d Hd ltac:(lia)) as (ds & E & L & D & V); auto. exists ds. rewrite E. repeat split; auto.
  - rewrite V. rewrite pow64 by lia. replace (6 * d) with ((6 * d - 8 * Z.of_nat (List.length data)) + 8 * Z.of_nat (List.length data)) at 1 by lia.
    rewrite pow2_add by lia. rewrite Z.mul_assoc. apply Z.div_mul. assert (X := pow_pos' (8 * Z.of_nat (List.length data))). lia.
  - intros ->. unfold d. cbn [Z.eqb]. Z.to_euclidean_division_equations; lia.
Qed.

(** Byte strings of equal List.length, automatic or sufficient explicit digits. *)
Theorem C18_data_order :
  forall a b digits sa sb, byte_string a -> byte_string b -> List.length a = List.length b -> Z.of_nat (List.length a) < 2 ^ 28 ->
  0 <= digits -> (digits = 0 \/ 8 * Z.of_nat (List.length a) <= 6 * digits) ->
  encode_data a digits = Ok sa -> encode_data b digits = Ok sb -> lex_compare sa sb = lex_compare a b.
Proof.
  intros a b digits sa sb Ha Hb Hl Hs H0 Hd Ea Eb.
  destruct (encode_data_numeral a digits Ha Hs H0 Hd) as (da & Fa & La & Da & Va & P & _).
  destruct (encode_data_numeral b digits Hb ltac:(lia) H0 ltac:(lia)) as (db & Fb & Lb & Db & Vb & _ & _).
  rewrite Ea in Fa. rewrite Eb in Fb. injection Fa as ->. injection Fb as ->. rewrite <- Hl in *.
  rewrite lex_chars by auto. rewrite (lex_numeral 64) by (auto; lia). rewrite (lex_numeral 256 a b) by (auto; lia). rewrite Va, Vb.
  set (e := 2 ^ _). assert (0 < e) by (apply pow_pos'; exact P).
  symmetry. apply Zmult_compare_compat_r. lia.
Qed.
Print Assumptions C18_data_order.

Example C18_met : exists sa sb, encode_data [1; 255] 0 = Ok sa /\ encode_data [2; 0] 0 = Ok sb /\ lex_compare sa sb = Lt.
Proof. do 2 eexists. vm_compute. auto. Qed.

(** C19. The automatic encoding of n bytes has ceil(8n/6) alphabet characters
    and decodes to the original bytes (so it is injective). *)
Theorem C19_data_round_trip :
  forall data, byte_string data -> Z.of_nat (List.length data) < 2 ^ 27 ->
  exists s v, encode_data data 0 = Ok s /\ base64_numeral s v
    /\ Z.of_nat (List.length s) = (8 * Z.of_nat (List.length data) + 5) / 6
    /\ decode s = Ok data.
Proof.
  intros data Hd Hl. destruct (encode_data_numeral data 0 Hd ltac:(lia) ltac:(lia) ltac:(lia)) as (ds & E & L & D & V & P & Q).
  cbn [Z.eqb] in L, V, P, Q. specialize (Q eq_refl). set (d := (8 * Z.of_nat (List.length data) + 5) / 6) in *.
  exists (map digit_char ds), (numeral 64 ds). rewrite map_length. split; auto. split; [now exists ds|]. split; auto.
  destruct (decode_spec ds D ltac:(lia)) as (b & Eb & Lb & Db & Vb). rewrite L in *.
  assert (Ek : 6 * d / 8 = Z.of_nat (List.length data)) by (clear - P Q; Z.to_euclidean_division_equations; lia).
  rewrite Ek in *. rewrite Eb. f_equal. apply (numeral_inj 256); auto; try lia.
  rewrite Vb, V. apply Z.div_mul. assert (X := pow_pos' (6 * d - 8 * Z.of_nat (List.length data))). lia.
Qed.
Print Assumptions C19_data_round_trip.

(** An explicit sufficient digit count keeps the data recoverable too. *)
Theorem C19_explicit_digits :
  forall data digits, byte_string data -> 8 * Z.of_nat (List.length data) <= 6 * digits -> 0 < digits < 2 ^ 27 ->
  exists s, encode_data data digits = Ok s /\ Z.of_nat (List.length s) = digits /\
    decode s = Ok (data ++ repeat 0 (Z.to_nat (6 * digits / 8) - List.length data)).
Proof.
  intros data digits Hd Hs Hg. destruct (encode_data_numeral data digits Hd ltac:(lia) ltac:(lia) ltac:(lia)) as (ds & E & L & D & V & P & _).
  replace (digits =? 0) with false in * by lia. exists (map digit_char ds). rewrite map_length. split; auto. split; auto.
  destruct (decode_spec ds D ltac:(lia)) as (b & Eb & Lb & Db & Vb). rewrite L in *. rewrite Eb. f_equal.
  assert (Hk : Z.of_nat (List.length data) <= 6 * digits / 8) by (clear - Hs; Z.to_euclidean_division_equations; lia).
  set (z := (Z.to_nat (6 * digits / 8) - List.length data)%nat).
  assert (Z0 : digits_of 256 (repeat 0 z) /\ numeral 256 (repeat 0 z) = 0).
  { induction z as [|n (I1 & I2)]; [split; [constructor|reflexivity]|]. cbn [repeat]. split; [constructor; auto; lia|]. rewrite numeral_cons, I2; lia. }
  apply (numeral_inj 256); auto; try lia.
  - apply Forall_app; split; [exact Hd|apply Z0].
  - rewrite app_length, repeat_length. lia.
  - rewrite Vb, V, numeral_app, (proj2 Z0), repeat_length, Z.add_0_r. rewrite pow256 by lia.
    set (k := 6 * digits / 8) in *. assert (K8 : 8 * k <= 6 * digits) by (clear; unfold k; Z.to_euclidean_division_equations; lia).
    replace (8 * Z.of_nat z) with (8 * k - 8 * Z.of_nat (List.length data)) by (unfold z; lia).
    replace (6 * digits - 8 * Z.of_nat (List.length data)) with ((8 * k - 8 * Z.of_nat (List.length data)) + (6 * digits - 8 * k)) by lia.
    rewrite pow2_add by lia. rewrite Z.mul_assoc. apply Z.div_mul. assert (X := pow_pos' (6 * digits - 8 * k)). lia.
Qed.
Print Assumptions C19_explicit_digits.

Example C19_run : encode_data (codes "hello") 0 = Ok (codes "O4JgP4w") /\ decode (codes "O4JgP4w") = Ok (codes "hello")
  /\ encode_data [1] 4 = Ok (codes "+E++") /\ decode (codes "+E++") = Ok [1; 0; 0].
Proof. vm_compute. auto. Qed.

(** Sizes are computed in an int32_t: no text comes out of 2^28 bytes, for which the default
    number of digits is negative, nor any bytes out of a text of 3 * 2^30 characters. *)
Theorem C19_large_refuted : (forall data, Z.of_nat (List.length data) = 2 ^ 28 -> encode_data data 0 = Abort) /\
  (forall data, Z.of_nat (List.length data) = 3 * 2 ^ 30 -> decode data = Abort).
Proof.
  split; intros data H.
  - unfold encode_data, encode_digits. rewrite H. reflexivity.
  - unfold decode. rewrite H. reflexivity.
Qed.
Print Assumptions C19_large_refuted.

(** C58. encodeBackward writes the base-64 numeral of the data read as a
    big-endian integer - for digit counts that the data can fill ... *)
Theorem C58_encodeBackward_partial :
  forall data digits, byte_string data -> 0 <= digits -> 6 * digits <= 8 * Z.of_nat (List.length data) ->
  exists s, encodeBackward data digits = Ok s /\ Z.of_nat (List.length s) = digits /\ base64_numeral s (numeral 256 data mod 64 ^ digits).
Proof.
  intros data digits Hd H0 Hs. unfold encodeBackward.
  destruct (backward_spec (Z.to_nat digits) (rev data) 0 0 []) as (ds & E & L & D & V); try lia.
  - apply Forall_forall. intros x Hx. apply in_rev in Hx. eapply Forall_forall in Hd; eauto.
  - rewrite rev_length. lia.
  - rewrite E, app_nil_r. eexists; split; [reflexivity|]. rewrite map_length. split; [lia|]. exists ds. repeat split; auto.
    rewrite V, le_value_rev, Z.pow_0_r, Z.mul_1_l, Z2Nat.id by lia. reflexivity.
Qed.
Print Assumptions C58_encodeBackward_partial.

(** ... but in the case the comment describes (zero bits added at the
    beginning, i.e. more digits than the data fills) it reads before the data. *)
Theorem C58_encodeBackward_refuted :
  exists data digits, byte_string data /\ 8 * Z.of_nat (List.length data) <= 6 * digits /\ encodeBackward data digits = UB.
Proof. exists [65], 2. split; [repeat constructor; lia|]. split; [cbn; lia|]. vm_compute. reflexivity. Qed.
Print Assumptions C58_encodeBackward_refuted.

Example C58_run : encodeBackward [1; 2; 3] 4 = Ok (codes "+E61").
Proof. vm_compute. reflexivity. Qed.
