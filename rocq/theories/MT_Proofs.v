(** Proofs about the Mersenne Twister. *)
From Coq Require Import List Arith ZArith Lia Bool ZifyBool ZifyNat.
From Verif Require Import Common CommonFacts ListFacts Random_Spec MT_Spec MT_Model.
Import ListNotations.
Local Open Scope Z_scope.

(** Linear functions of 32-bit words are known from their values at the single bits. *)
Definition linear (f : Z -> Z) : Prop := f 0 = 0 /\ forall a b, f (Z.lxor a b) = Z.lxor (f a) (f b).
Lemma linear_id : linear (fun y => y).
Proof. split; auto. Qed.
Lemma linear_lxor f g : linear f -> linear g -> linear (fun y => Z.lxor (f y) (g y)).
Proof.
  intros (F0 & F) (G0 & G). split; [now rewrite F0, G0|]. intros a b. rewrite F, G. rewrite !Z.lxor_assoc. f_equal. rewrite <- !Z.lxor_assoc. f_equal. apply Z.lxor_comm.
Qed.
Lemma linear_shiftr f k : linear f -> linear (fun y => Z.shiftr (f y) k).
Proof. intros (F0 & F). split; [now rewrite F0, Z.shiftr_0_l|]. intros a b. rewrite F. apply Z.shiftr_lxor. Qed.
Lemma linear_shiftl f k : linear f -> linear (fun y => Z.shiftl (f y) k).
Proof. intros (F0 & F). split; [now rewrite F0, Z.shiftl_0_l|]. intros a b. rewrite F. apply Z.shiftl_lxor. Qed.
Lemma linear_land f m : linear f -> linear (fun y => Z.land (f y) m).
Proof.
  intros (F0 & F). split; [now rewrite F0, Z.land_0_l|]. intros a b. rewrite F. apply Z.bits_inj'. intros i _. rewrite Z.lxor_spec, !Z.land_spec, Z.lxor_spec.
  destruct (Z.testbit (f a) i), (Z.testbit (f b) i), (Z.testbit m i); reflexivity.
Qed.
Lemma linear_mod f k : 0 <= k -> linear f -> linear (fun y => f y mod 2 ^ k).
Proof.
  intros Hk L. destruct (linear_land f (Z.ones k) L) as (A & B). split; intros; rewrite <- !Z.land_ones by exact Hk; auto.
Qed.
Lemma linear_comp f g : linear f -> linear g -> linear (fun y => f (g y)).
Proof. intros (F0 & F) (G0 & G). split; [now rewrite G0|]. intros a b. now rewrite G. Qed.
Lemma split_bit n y : 0 <= n -> 2 ^ n <= y < 2 ^ (n + 1) -> y = Z.lxor (2 ^ n) (y - 2 ^ n).
Proof.
  intros Hn Hy. rewrite Z.pow_add_r in Hy by lia. rewrite <- Z.add_nocarry_lxor; [lia|].
  apply Z.bits_inj'. intros i Hi. rewrite Z.land_spec, Z.bits_0, Z.pow2_bits_eqb by exact Hn. destruct (Z.eqb_spec n i) as [->|]; [|reflexivity]. cbn [andb].
  replace (y - 2 ^ i) with ((y - 2 ^ i) mod 2 ^ i) by (apply Z.mod_small; lia). now rewrite Z.mod_pow2_bits_high by lia.
Qed.
Lemma linear_fix f : linear f -> forall n, (n <= 32)%nat -> forallb (fun i => f (2 ^ Z.of_nat i) =? 2 ^ Z.of_nat i) (seq 0 32) = true -> forall y, 0 <= y < 2 ^ Z.of_nat n -> f y = y.
Proof.
  intros (F0 & F) n. induction n as [|n IH]; intros Hn B y Hy.
  - cbn in Hy. replace y with 0 by lia. exact F0.
  - destruct (Z_lt_le_dec y (2 ^ Z.of_nat n)) as [L|L]; [apply IH; lia || assumption|].
    replace (Z.of_nat (S n)) with (Z.of_nat n + 1) in Hy by lia. rewrite (split_bit (Z.of_nat n) y) by lia. rewrite F. f_equal.
    + rewrite forallb_forall in B. specialize (B n). rewrite Z.eqb_eq in B. apply B. apply in_seq. lia.
    + apply IH; [lia|exact B|]. rewrite Z.pow_add_r in Hy by lia. lia.
Qed.
Lemma linear_temper : linear temper.
Proof.
  unfold temper. cbv zeta.
  assert (S1 : linear (fun y => Z.lxor y (Z.shiftr y 11))) by (apply linear_lxor; [apply linear_id|apply linear_shiftr, linear_id]).
  assert (S2 : linear (fun y => Z.lxor y (Z.land (Z.shiftl y 7 mod 2 ^ 32) TEMPERING_MASK_B))) by (apply linear_lxor; [apply linear_id|apply linear_land, linear_mod, linear_shiftl, linear_id; lia]).
  assert (S3 : linear (fun y => Z.lxor y (Z.land (Z.shiftl y 15 mod 2 ^ 32) TEMPERING_MASK_C))) by (apply linear_lxor; [apply linear_id|apply linear_land, linear_mod, linear_shiftl, linear_id; lia]).
  assert (S4 : linear (fun y => Z.lxor y (Z.shiftr y 18))) by (apply linear_lxor; [apply linear_id|apply linear_shiftr, linear_id]).
  exact (linear_comp _ _ S4 (linear_comp _ _ S3 (linear_comp _ _ S2 S1))).
Qed.
(** Undoing each step of the tempering. *)
Definition undo_r (k : Z) (n : nat) (y : Z) : Z := Nat.iter n (fun x => Z.lxor y (Z.shiftr x k)) y.
Definition undo_l (k m : Z) (n : nat) (y : Z) : Z := Nat.iter n (fun x => Z.lxor y (Z.land (Z.shiftl x k mod 2 ^ 32) m)) y.
Definition untemper (y : Z) : Z :=
  undo_r 11 2 (undo_l 7 TEMPERING_MASK_B 4 (undo_l 15 TEMPERING_MASK_C 2 (undo_r 18 1 y))).
Lemma linear_undo_r k n : linear (undo_r k n).
Proof. unfold undo_r. induction n as [|n IH]; cbn [Nat.iter]; [apply linear_id|]. apply linear_lxor; [apply linear_id|]. apply linear_shiftr. exact IH. Qed.
Lemma linear_undo_l k m n : linear (undo_l k m n).
Proof. unfold undo_l. induction n as [|n IH]; cbn [Nat.iter]; [apply linear_id|]. apply linear_lxor; [apply linear_id|]. apply linear_land, linear_mod, linear_shiftl; [lia|]. exact IH. Qed.
Lemma linear_untemper : linear untemper.
Proof.
  exact (linear_comp _ _ (linear_undo_r 11 2) (linear_comp _ _ (linear_undo_l 7 TEMPERING_MASK_B 4) (linear_comp _ _ (linear_undo_l 15 TEMPERING_MASK_C 2) (linear_undo_r 18 1)))).
Qed.
Lemma untemper_temper y : 0 <= y < 2 ^ 32 -> untemper (temper y) = y.
Proof. apply (linear_fix (fun y => untemper (temper y)) (linear_comp _ _ linear_untemper linear_temper) 32); [lia|]. vm_compute. reflexivity. Qed.
Lemma temper_untemper y : 0 <= y < 2 ^ 32 -> temper (untemper y) = y.
Proof. apply (linear_fix (fun y => temper (untemper y)) (linear_comp _ _ linear_temper linear_untemper) 32); [lia|]. vm_compute. reflexivity. Qed.

(** Ranges *)
Definition word (y : Z) : Prop := 0 <= y < 2 ^ 32.
Lemma word_mod y : word (y mod 2 ^ 32).
Proof. apply Z.mod_pos_bound. lia. Qed.
Lemma word_iff y : word y <-> y mod 2 ^ 32 = y.
Proof. split; intros H; [now apply Z.mod_small|rewrite <- H; apply word_mod]. Qed.
Lemma word_lxor a b : word a -> word b -> word (Z.lxor a b).
Proof. rewrite !word_iff. intros A B. rewrite <- Z.land_ones in * by lia. rewrite <- A, <- B. apply Z.bits_inj'. intros i Hi. rewrite Z.land_spec, !Z.lxor_spec, !Z.land_spec. destruct (Z.testbit a i), (Z.testbit b i), (Z.testbit (Z.ones 32) i); reflexivity. Qed.
Lemma word_land a b : word a -> word (Z.land a b).
Proof. rewrite !word_iff. intros A. rewrite <- Z.land_ones in * by lia. rewrite <- A. apply Z.bits_inj'. intros i Hi. rewrite !Z.land_spec. destruct (Z.testbit a i), (Z.testbit b i), (Z.testbit (Z.ones 32) i); reflexivity. Qed.
Lemma word_shiftr a k : 0 <= k -> word a -> word (Z.shiftr a k).
Proof.
  intros Hk (H1 & H2). rewrite Z.shiftr_div_pow2 by exact Hk. assert (0 < 2 ^ k) by (apply Z.pow_pos_nonneg; lia). split; [apply Z.div_pos; lia|]. apply Z.div_lt_upper_bound; [lia|]. nia.
Qed.
Lemma word_temper y : word y -> word (temper y).
Proof.
  intros H. unfold temper. cbv zeta. assert (W1 : word (Z.lxor y (Z.shiftr y 11))) by (apply word_lxor; [exact H|apply word_shiftr; [lia|exact H]]). set (y1 := Z.lxor y _) in *.
  assert (W2 : word (Z.lxor y1 (Z.land (Z.shiftl y1 7 mod 2 ^ 32) TEMPERING_MASK_B))) by (apply word_lxor; [exact W1|apply word_land, word_mod]). set (y2 := Z.lxor y1 _) in *.
  assert (W3 : word (Z.lxor y2 (Z.land (Z.shiftl y2 15 mod 2 ^ 32) TEMPERING_MASK_C))) by (apply word_lxor; [exact W2|apply word_land, word_mod]). set (y3 := Z.lxor y2 _) in *.
  apply word_lxor; [exact W3|]. apply word_shiftr; [lia|exact W3].
Qed.
Lemma word_undo_r k n y : 0 <= k -> word y -> word (undo_r k n y).
Proof. intros Hk H. unfold undo_r. induction n as [|n IH]; cbn [Nat.iter]; [exact H|]. apply word_lxor; [exact H|]. now apply word_shiftr. Qed.
Lemma word_undo_l k m n y : word y -> word (undo_l k m n y).
Proof. intros H. unfold undo_l. induction n as [|n IH]; cbn [Nat.iter]; [exact H|]. apply word_lxor; [exact H|]. apply word_land, word_mod. Qed.
Lemma word_untemper y : word y -> word (untemper y).
Proof. intros H. unfold untemper. apply word_undo_r; [lia|]. apply word_undo_l, word_undo_l. apply word_undo_r; [lia|exact H]. Qed.

(** The model's operations are those of the specification. *)
Lemma land_low y n m : 0 <= n -> 0 <= m < 2 ^ n -> Z.land (y mod 2 ^ n) m = Z.land y m.
Proof. intros Hn Hm. rewrite <- Z.land_ones by exact Hn. rewrite <- Z.land_assoc. f_equal. rewrite Z.land_comm, Z.land_ones by exact Hn. now apply Z.mod_small. Qed.
Lemma temper_spec y : temper y = mt_temper y.
Proof.
  unfold temper, mt_temper. cbv zeta. rewrite !Z.shiftr_div_pow2, !Z.shiftl_mul_pow2 by lia. unfold TEMPERING_MASK_B, TEMPERING_MASK_C. now rewrite !land_low by lia.
Qed.
Lemma lor_disjoint n a b : 0 <= n -> 0 <= a -> 0 <= b < 2 ^ n -> Z.lor (a * 2 ^ n) b = a * 2 ^ n + b.
Proof.
  intros Hn Ha Hb. rewrite <- Z.shiftl_mul_pow2 by lia.
  assert (L : Z.land (Z.shiftl a n) b = 0).
  { apply Z.bits_inj'. intros i Hi. rewrite Z.land_spec, Z.bits_0. destruct (Z_lt_le_dec i n) as [C|C].
    - now rewrite Z.shiftl_spec_low by exact C.
    - replace b with (b mod 2 ^ n) by (apply Z.mod_small; lia). rewrite Z.mod_pow2_bits_high by lia. apply andb_false_r. }
  rewrite Z.add_nocarry_lxor by exact L. symmetry. now apply Z.lxor_lor.
Qed.
Lemma land_upper a : word a -> Z.land a UPPER_MASK = a / 2 ^ 31 * 2 ^ 31.
Proof.
  intros (H1 & H2). assert (D : a / 2 ^ 31 = 0 \/ a / 2 ^ 31 = 1). { assert (0 <= a / 2 ^ 31) by (apply Z.div_pos; lia). assert (a / 2 ^ 31 < 2) by (apply Z.div_lt_upper_bound; lia). lia. }
  apply Z.bits_inj'. intros i Hi. rewrite Z.land_spec. change UPPER_MASK with (2 ^ 31). rewrite Z.pow2_bits_eqb by lia. rewrite <- Z.shiftl_mul_pow2 by lia.
  destruct (Z.eqb_spec 31 i) as [<-|N].
  - rewrite Z.shiftl_spec, <- Z.shiftr_div_pow2, Z.shiftr_spec by lia. now rewrite andb_true_r.
  - rewrite andb_false_r. symmetry. destruct (Z_lt_le_dec i 31) as [C|C]; [now apply Z.shiftl_spec_low|]. rewrite Z.shiftl_spec by lia. destruct D as [->| ->]; [apply Z.bits_0|].
    change 1 with (2 ^ 0). rewrite Z.pow2_bits_eqb by lia. lia.
Qed.
Lemma twist_spec a b c : word a -> word b -> twist a b c = mt_step a b c.
Proof.
  intros Ha Hb. unfold twist, mt_step. cbv zeta. rewrite land_upper by exact Ha. change LOWER_MASK with (Z.ones 31). rewrite Z.land_ones by lia.
  rewrite lor_disjoint; [|lia|destruct Ha; apply Z.div_pos; lia|apply Z.mod_pos_bound; lia]. set (y := _ + _). rewrite Z.lxor_assoc. rewrite Z.shiftr_div_pow2 by lia. change (2 ^ 1) with 2. f_equal. f_equal.
  change 1 with (Z.ones 1). rewrite Z.land_ones by lia. change (2 ^ 1) with 2. rewrite Zmod_odd. destruct (Z.odd y); reflexivity.
Qed.
Lemma word_step a b c : word a -> word b -> word c -> word (mt_step a b c).
Proof.
  intros Ha Hb Hc. unfold mt_step. cbv zeta. set (y := _ + _). assert (Y : word y).
  { unfold y, word in *. assert (0 <= a / 2 ^ 31) by (apply Z.div_pos; lia). assert (a / 2 ^ 31 < 2) by (apply Z.div_lt_upper_bound; lia). pose proof (Z.mod_pos_bound b (2 ^ 31) ltac:(lia)). lia. }
  apply word_lxor; [exact Hc|]. apply word_lxor; [|destruct (Z.odd y); unfold word; lia]. change (y / 2) with (y / 2 ^ 1). rewrite <- (Z.shiftr_div_pow2 y 1) by lia. apply word_shiftr; [lia|exact Y].
Qed.

(** A sequence for every first 624 words. *)
Definition shift_window (w : list Z) : list Z := tl w ++ [mt_step (nth 0 w 0) (nth 1 w 0) (nth 397 w 0)].
Definition seq_of (w : list Z) (n : nat) : Z := nth 0 (Nat.iter n shift_window w) 0.
Lemma length_shift w : length w = 624%nat -> length (shift_window w) = 624%nat.
Proof. intros H. unfold shift_window. rewrite app_length. destruct w as [|a w]; [discriminate|]. cbn [tl length] in *. lia. Qed.
Lemma nth_shift w j : length w = 624%nat -> (j < 623)%nat -> nth j (shift_window w) 0 = nth (S j) w 0.
Proof. intros H Hj. unfold shift_window. destruct w as [|a w]; [discriminate|]. cbn [tl length] in *. rewrite app_nth1 by lia. reflexivity. Qed.
Lemma nth_shift_last w : length w = 624%nat -> nth 623 (shift_window w) 0 = mt_step (nth 0 w 0) (nth 1 w 0) (nth 397 w 0).
Proof. intros H. unfold shift_window. assert (length (tl w) = 623%nat) by (destruct w as [|a w]; [discriminate|cbn [tl length] in *; lia]). rewrite app_nth2 by lia. rewrite H0. reflexivity. Qed.
Lemma word_shift w : length w = 624%nat -> Forall word w -> Forall word (shift_window w).
Proof.
  intros H F. unfold shift_window. apply Forall_app. split; [destruct F; [constructor|assumption]|]. constructor; [|constructor].
  rewrite Forall_forall in F. apply word_step; apply F, nth_In; lia.
Qed.
Lemma iter_window w n : length w = 624%nat -> Forall word w -> length (Nat.iter n shift_window w) = 624%nat /\ Forall word (Nat.iter n shift_window w).
Proof. intros H F. induction n as [|n (A & B)]; cbn [Nat.iter nat_rect]; [auto|]. split; [now apply length_shift|now apply word_shift]. Qed.
Lemma window_nth w : length w = 624%nat -> Forall word w -> forall j n, (j < 624)%nat -> nth j (Nat.iter n shift_window w) 0 = seq_of w (n + j)%nat.
Proof.
  intros H F. induction j as [|j IH]; intros n Hj; [unfold seq_of; now rewrite Nat.add_0_r|].
  destruct (iter_window w n H F) as (L & _). rewrite <- nth_shift by (exact L || lia). change (shift_window (Nat.iter n shift_window w)) with (Nat.iter (S n) shift_window w). rewrite IH by lia. f_equal. lia.
Qed.
Lemma seq_of_sequence w : length w = 624%nat -> Forall word w -> mt_sequence (seq_of w).
Proof.
  intros H F. split.
  - intros k. destruct (iter_window w k H F) as (L & W). unfold seq_of. rewrite Forall_forall in W. apply W. apply nth_In. lia.
  - intros k. destruct (iter_window w k H F) as (L & W). replace (k + 624)%nat with (S k + 623)%nat by lia. rewrite <- (window_nth w H F 623) by lia. cbn [Nat.iter nat_rect].
    change (nat_rect (fun _ => list Z) w (fun _ : nat => shift_window) k) with (Nat.iter k shift_window w). rewrite nth_shift_last by exact L. rewrite !(window_nth w H F) by lia. now rewrite Nat.add_0_r.
Qed.
Lemma seq_of_first w j : length w = 624%nat -> Forall word w -> (j < 624)%nat -> nth_error w j = Some (seq_of w j).
Proof. intros H F Hj. rewrite (nth_error_nth' w 0) by lia. f_equal. exact (window_nth w H F j 0 Hj). Qed.

(** Reloading: the array holds the next 624 words of the sequence. *)
Definition part (x : nat -> Z) (p kk : nat) (m : list Z) : Prop :=
  length m = 624%nat /\ forall j, (j < 624)%nat -> nth_error m j = Some (if (j <? kk)%nat then x (p + 624 + j)%nat else x (p + j)%nat).
Lemma part_step x p kk m next far : mt_sequence x -> part x p kk m -> (kk < 624)%nat -> (next < 624)%nat -> (far < 624)%nat ->
  (if (next <? kk)%nat then next = 0%nat /\ kk = 623%nat else next = kk + 1)%nat -> (if (far <? kk)%nat then far + 624 = kk + 397 else far = kk + 397)%nat ->
  exists m', twist_at m kk next far = Ok m' /\ part x p (S kk) m'.
Proof.
  intros (W & R) (L & P) Hk Hn Hf En Ef. unfold twist_at.
  rewrite (get_Some _ _ _ (P kk Hk)), (get_Some _ _ _ (P next Hn)), (get_Some _ _ _ (P far Hf)). cbn [bind]. rewrite put_ok by lia. eexists. split; [reflexivity|].
  split; [now rewrite length_upd|]. intros j Hj. replace (kk <? kk)%nat with false by lia.
  assert (E1 : (if (next <? kk)%nat then x (p + 624 + next)%nat else x (p + next)%nat) = x (p + kk + 1)%nat) by (destruct (next <? kk)%nat; f_equal; lia).
  assert (E2 : (if (far <? kk)%nat then x (p + 624 + far)%nat else x (p + far)%nat) = x (p + kk + 397)%nat) by (destruct (far <? kk)%nat; f_equal; lia).
  rewrite E1, E2. rewrite twist_spec by apply W. rewrite <- R.
  destruct (Nat.eq_dec j kk) as [->|N].
  - rewrite nth_error_upd_eq by lia. replace (kk <? S kk)%nat with true by lia. do 2 f_equal. lia.
  - rewrite nth_error_upd_neq by auto. rewrite P by exact Hj. replace (j <? S kk)%nat with (j <? kk)%nat by lia. reflexivity.
Qed.
Lemma loop1_part x p : mt_sequence x -> forall n kk m, part x p kk m -> (kk + n <= 227)%nat -> exists m', reload_loop1 n kk m = Ok m' /\ part x p (kk + n) m'.
Proof.
  intros S. induction n as [|n IH]; intros kk m P H; cbn [reload_loop1]; [exists m; rewrite Nat.add_0_r; auto|].
  destruct (part_step x p kk m (kk + 1) (kk + 397) S P) as (m1 & E & P1); try lia.
  - replace (kk + 1 <? kk)%nat with false by lia. lia.
  - replace (kk + 397 <? kk)%nat with false by lia. lia.
  - change MT_M with 397%nat. rewrite E. cbn [bind]. destruct (IH (Datatypes.S kk) m1 P1) as (m' & E' & P'); [lia|]. exists m'. split; [exact E'|]. replace (kk + Datatypes.S n)%nat with (Datatypes.S kk + n)%nat by lia. exact P'.
Qed.
Lemma loop2_part x p : mt_sequence x -> forall n kk m, part x p kk m -> (227 <= kk)%nat -> (kk + n <= 623)%nat -> exists m', reload_loop2 n kk m = Ok m' /\ part x p (kk + n) m'.
Proof.
  intros S. induction n as [|n IH]; intros kk m P H0 H; cbn [reload_loop2]; [exists m; rewrite Nat.add_0_r; auto|].
  destruct (part_step x p kk m (kk + 1) (kk + 397 - 624) S P) as (m1 & E & P1); try lia.
  - replace (kk + 1 <? kk)%nat with false by lia. lia.
  - replace (kk + 397 - 624 <? kk)%nat with true by lia. lia.
  - change MT_M with 397%nat. change MT_N with 624%nat. rewrite E. cbn [bind]. destruct (IH (Datatypes.S kk) m1 P1) as (m' & E' & P'); [lia|lia|]. exists m'. split; [exact E'|]. replace (kk + Datatypes.S n)%nat with (Datatypes.S kk + n)%nat by lia. exact P'.
Qed.
(** [holds x p s]: the array holds words p .. p+623. *)
Definition holds (x : nat -> Z) (p : nat) (s : mts) : Prop :=
  length (mt s) = 624%nat /\ forall j, (j < 624)%nat -> nth_error (mt s) j = Some (x (p + j)%nat).
Lemma reload_holds x p s : mt_sequence x -> holds x p s -> exists s', reloadArray s = Ok s' /\ holds x (p + 624) s' /\ mti s' = 0%nat.
Proof.
  intros S (L & H). assert (P0 : part x p 0 (mt s)) by (split; [exact L|intros j Hj; cbn [Nat.ltb Nat.leb]; now apply H]).
  unfold reloadArray. change (MT_N - MT_M)%nat with 227%nat. change (MT_N - 1 - 227)%nat with 396%nat. change (MT_N - 1)%nat with 623%nat. change (MT_M - 1)%nat with 396%nat.
  destruct (loop1_part x p S 227 0 (mt s) P0) as (m1 & -> & P1); [lia|]. cbn [bind]. destruct (loop2_part x p S 396 227 m1 P1) as (m2 & -> & P2); [lia|lia|]. cbn [bind].
  destruct (part_step x p 623 m2 0 396 S P2) as (m3 & -> & L3 & P3); try lia; [split; reflexivity|reflexivity|]. cbn [bind]. eexists. split; [reflexivity|]. split; [|reflexivity].
  split; [exact L3|]. intros j Hj. cbn [mt]. rewrite P3 by exact Hj. replace (j <? 624)%nat with true by lia. reflexivity.
Qed.
Lemma next_holds x p s : mt_sequence x -> holds x p s -> (mti s <= 624)%nat ->
  exists s' p', mt_next s = Ok (temper (x (p + mti s)%nat), s') /\ holds x p' s' /\ (mti s' <= 624)%nat /\ (p' + mti s' = p + mti s + 1)%nat.
Proof.
  intros S H M. unfold mt_next. change MT_N with 624%nat. destruct (Nat.leb_spec 624 (mti s)) as [C|C].
  - destruct (reload_holds x p s S H) as (s1 & -> & H1 & M1). cbn [bind]. destruct H1 as (L1 & N1). rewrite M1. rewrite (get_Some _ _ _ (N1 0%nat ltac:(lia))). cbn [bind].
    eexists _, (p + 624)%nat. split; [do 3 f_equal; f_equal; lia|]. cbn [mti]. split; [split; assumption|]. lia.
  - cbn [bind]. destruct H as (L & N). rewrite (get_Some _ _ _ (N (mti s) C)). cbn [bind]. eexists _, p. split; [reflexivity|]. cbn [mti]. split; [split; assumption|]. lia.
Qed.
Lemma emits_outputs x : mt_sequence x -> forall n p s, holds x p s -> (mti s <= 624)%nat ->
  exists s', emits mt_next s (map (fun i => temper (x (p + mti s + i)%nat)) (seq 0 n)) s'.
Proof.
  intros S. induction n as [|n IH]; intros p s H M; [exists s; constructor|].
  destruct (next_holds x p s S H M) as (s1 & p1 & E & H1 & M1 & Q). destruct (IH p1 s1 H1 M1) as (s' & T). exists s'. cbn [seq map]. rewrite Nat.add_0_r. econstructor; [exact E|].
  rewrite <- seq_shift, map_map. erewrite map_ext; [exact T|]. intros i. cbn beta. do 2 f_equal. lia.
Qed.

(** Never all zero. *)
Definition alive (x : nat -> Z) (k : nat) : Prop := 2 ^ 31 <= x k \/ exists j, (0 < j < 624)%nat /\ x (k + j)%nat <> 0.
Lemma step_zero a b : word a -> word b -> mt_step a b 0 = 0 -> a < 2 ^ 31 /\ b mod 2 ^ 31 = 0.
Proof.
  intros Ha Hb E. unfold mt_step in E. cbv zeta in E. rewrite Z.lxor_0_l in E. apply Z.lxor_eq in E. unfold word in *.
  assert (A0 : 0 <= a / 2 ^ 31) by (apply Z.div_pos; lia). assert (A1 : a / 2 ^ 31 < 2) by (apply Z.div_lt_upper_bound; lia). pose proof (Z.mod_pos_bound b (2 ^ 31) ltac:(lia)) as B.
  pose proof (Z.div_mod a (2 ^ 31) ltac:(lia)) as AM. pose proof (Z.mod_pos_bound a (2 ^ 31) ltac:(lia)) as AB.
  set (y := a / 2 ^ 31 * 2 ^ 31 + b mod 2 ^ 31) in *. destruct (Z.odd y) eqn:O.
  - exfalso. assert (y / 2 < 2 ^ 31) by (apply Z.div_lt_upper_bound; lia). lia.
  - assert (Y : y = 2 * (y / 2)). { pose proof (Z.div_mod y 2 ltac:(lia)) as M. rewrite Zmod_odd, O in M. lia. } lia.
Qed.
Lemma alive_next x k : mt_sequence x -> alive x k -> alive x (S k).
Proof.
  intros (W & R) A.
  assert (D : forall j, (0 < j < 624)%nat -> x (S k + j)%nat = 0 \/ alive x (S k)) by (intros j Hj; destruct (Z.eq_dec (x (S k + j)%nat) 0); [now left|right; right; eauto]).
  assert (Z0 : (forall j, (0 < j < 624)%nat -> x (S k + j)%nat = 0) \/ alive x (S k)).
  { clear A. assert (Q : forall n, (forall j, (0 < j < n)%nat -> (j < 624)%nat -> x (S k + j)%nat = 0) \/ alive x (S k)).
    { induction n as [|n IH]; [left; lia|]. destruct IH as [IH|]; [|now right]. destruct (Nat.eq_dec n 0) as [->|N]; [left; lia|].
      destruct (le_lt_dec 624 n) as [G|G]; [left; intros; apply IH; lia|]. destruct (D n ltac:(lia)) as [E|]; [|now right]. left. intros j Hj Hj'. destruct (Nat.eq_dec j n) as [->|]; [exact E|apply IH; lia]. }
    destruct (Q 624%nat) as [Q'|]; [left; intros; apply Q'; lia|now right]. }
  destruct Z0 as [Z0|]; [|assumption]. destruct (Z_lt_le_dec (x (S k)) (2 ^ 31)) as [T|T]; [|now left]. exfalso.
  assert (C : x (k + 397)%nat = 0) by (replace (k + 397)%nat with (S k + 396)%nat by lia; apply Z0; lia).
  assert (E : x (k + 624)%nat = 0) by (replace (k + 624)%nat with (S k + 623)%nat by lia; apply Z0; lia).
  rewrite R, C in E. apply step_zero in E; [|apply W|apply W]. destruct E as (E1 & E2). replace (k + 1)%nat with (S k) in E2 by lia.
  pose proof (W (S k)) as WS. rewrite Z.mod_small in E2 by lia. destruct A as [A|(j & Hj & A)]; [lia|]. apply A.
  destruct (Nat.eq_dec j 1) as [->|]; [replace (k + 1)%nat with (S k) by lia; exact E2|]. replace (k + j)%nat with (S k + (j - 1))%nat by lia. apply Z0. lia.
Qed.
Lemma alive_all x k : mt_sequence x -> alive x 0 -> alive x k.
Proof. intros S A. induction k as [|k IH]; [exact A|]. now apply alive_next. Qed.
Lemma alive_output x k : mt_sequence x -> alive x k -> exists j, (j < 624)%nat /\ temper (x (k + j)%nat) <> 0.
Proof.
  intros (W & R) A. assert (N : exists j, (j < 624)%nat /\ x (k + j)%nat <> 0).
  { destruct A as [A|(j & Hj & A)]; [exists 0%nat; rewrite Nat.add_0_r; lia|exists j; lia]. }
  destruct N as (j & Hj & N). exists j. split; [exact Hj|]. intros E. apply N. rewrite <- (untemper_temper (x (k + j)%nat)) by apply W. rewrite E. reflexivity.
Qed.

(** Seeding *)
Lemma init_loop_spec : forall n i m, length m = 624%nat -> (0 < i)%nat -> (i + n <= 624)%nat ->
  exists m', init_loop n i m = Ok m' /\ length m' = 624%nat /\ (forall j, (j < i)%nat -> nth_error m' j = nth_error m j) /\
    (forall j, (i <= j < i + n)%nat -> exists p, nth_error m' (j - 1) = Some p /\ nth_error m' j = Some ((1812433253 * scramble p + Z.of_nat j) mod 2 ^ 32)).
Proof.
  induction n as [|n IH]; intros i m L Hi H; cbn [init_loop]; [exists m; split; [reflexivity|split; [exact L|split; [auto|lia]]]|].
  destruct (get_lt m (i - 1)) as (p & Ep & ->); [lia|]. cbn [bind]. rewrite put_ok by lia. cbn [bind].
  destruct (IH (S i) (upd m i ((1812433253 * scramble p + Z.of_nat i) mod 2 ^ 32))) as (m' & E & L' & A & B); [now rewrite length_upd|lia|lia|].
  exists m'. split; [exact E|]. split; [exact L'|]. split.
  - intros j Hj. rewrite A by lia. apply nth_error_upd_neq. lia.
  - intros j Hj. destruct (Nat.eq_dec j i) as [->|N]; [|apply B; lia]. exists p. rewrite !A by lia. rewrite nth_error_upd_neq by lia. split; [exact Ep|]. apply nth_error_upd_eq. lia.
Qed.
Lemma init_spec m seed : length m = 624%nat -> word seed -> exists s, mt_init m seed = Ok s /\ length (mt s) = 624%nat /\ mti s = 624%nat /\ seed_used s = seed /\
  nth_error (mt s) 0 = Some seed /\
  (forall j, (0 < j < 624)%nat -> exists p, nth_error (mt s) (j - 1) = Some p /\ nth_error (mt s) j = Some ((1812433253 * scramble p + Z.of_nat j) mod 2 ^ 32)).
Proof.
  intros L W. unfold mt_init. rewrite put_ok by lia. cbn [bind]. change 4294967295 with (Z.ones 32). rewrite Z.land_ones by lia. rewrite (proj1 (word_iff seed) W).
  destruct (init_loop_spec (MT_N - 1) 1 (upd m 0 seed)) as (m' & -> & L' & A & B); [now rewrite length_upd|lia|unfold MT_N; lia|]. cbn [bind]. eexists. split; [reflexivity|]. cbn [mt mti seed_used].
  split; [exact L'|]. split; [reflexivity|]. split; [reflexivity|]. split; [rewrite A by lia; apply nth_error_upd_eq; lia|]. intros j Hj. apply B. unfold MT_N. lia.
Qed.
Lemma words_of (m : list Z) : (forall j, (j < length m)%nat -> exists v, nth_error m j = Some v /\ word v) -> Forall word m.
Proof. intros H. apply Forall_forall. intros v I. destruct (In_nth_error _ _ I) as (j & E). destruct (H j (nth_error_lt _ _ _ E)) as (v' & E' & W). congruence. Qed.
Lemma init_words m seed s : length m = 624%nat -> word seed -> mt_init m seed = Ok s -> Forall word (mt s).
Proof.
  intros L W E. destruct (init_spec m seed L W) as (s' & E' & L' & _ & _ & H0 & HS). rewrite E in E'. injection E' as <-. apply words_of. intros j Hj. rewrite L' in Hj.
  destruct (Nat.eq_dec j 0) as [->|N]; [eauto|]. destruct (HS j ltac:(lia)) as (p & _ & Hp). eexists. split; [exact Hp|]. apply word_mod.
Qed.
Lemma init_deterministic m m' seed : length m = 624%nat -> length m' = 624%nat -> word seed -> mt_init m seed = mt_init m' seed.
Proof.
  intros L L' W. destruct (init_spec m seed L W) as (s & E & Ls & M & U & H0 & HS). destruct (init_spec m' seed L' W) as (s' & E' & Ls' & M' & U' & H0' & HS'). rewrite E, E'. f_equal.
  assert (Q : mt s = mt s').
  { apply nth_error_ext. intros i. destruct (le_lt_dec 624 i) as [G|G]; [rewrite (proj2 (nth_error_None (mt s) i)), (proj2 (nth_error_None (mt s') i)) by lia; reflexivity|].
    induction i as [|i IH]; [congruence|]. destruct (HS (S i) ltac:(lia)) as (p & A & B). destruct (HS' (S i) ltac:(lia)) as (p' & A' & B'). replace (S i - 1)%nat with i in * by lia. rewrite IH in A by lia. rewrite A in A'. injection A' as ->. congruence. }
  destruct s, s'. cbn in *. congruence.
Qed.
Lemma init_holds m seed : length m = 624%nat -> word seed -> exists s x, mt_init m seed = Ok s /\ mti s = 624%nat /\ holds x 0 s /\ mt_sequence x /\ mt_seeded seed x /\ alive x 0.
Proof.
  intros L W. destruct (init_spec m seed L W) as (s & E & Ls & M & U & H0 & HS). pose proof (init_words m seed s L W E) as Fw.
  exists s, (seq_of (mt s)). split; [exact E|]. split; [exact M|]. assert (N := fun j => seq_of_first (mt s) j Ls Fw). split; [split; [exact Ls|exact N]|]. split; [now apply seq_of_sequence|].
  assert (S : mt_seeded seed (seq_of (mt s))).
  { split; [rewrite N in H0 by lia; congruence|]. intros i Hi. destruct (HS i Hi) as (p & A & B). rewrite N in A, B by lia. unfold scramble in B. rewrite Z.shiftr_div_pow2 in B by lia. congruence. }
  split; [exact S|]. destruct S as (_ & S). right. destruct (Z.eq_dec (seq_of (mt s) 1) 0) as [E1|N1]; [|exists 1%nat; split; [lia|exact N1]].
  exists 2%nat. split; [lia|]. cbn [Nat.add]. rewrite (S 2%nat) by lia. change (2 - 1)%nat with 1%nat. rewrite E1. vm_compute. discriminate.
Qed.
(** Seeding with an array. *)
Lemma wrap_ok m i : length m = 624%nat -> Forall word m -> (0 < i <= 624)%nat ->
  exists i' m', (if Nat.leb MT_N i then let! l := get m (MT_N - 1) in let! m := put m 0 l in Ok (1%nat, m) else Ok (i, m)) = Ok (i', m') /\ (0 < i' < 624)%nat /\ length m' = 624%nat /\ Forall word m'.
Proof.
  intros L F Hi. change MT_N with 624%nat. change (624 - 1)%nat with 623%nat. destruct (Nat.leb_spec 624 i) as [C|C]; [|exists i, m; split; [reflexivity|]; split; [lia|auto]].
  destruct (get_lt m 623) as (v & Ev & ->); [lia|]. cbn [bind]. rewrite put_ok by lia. cbn [bind]. eexists _, _. split; [reflexivity|]. split; [lia|]. rewrite length_upd. split; [exact L|].
  apply words_of. rewrite length_upd. intros j Hj. destruct (Nat.eq_dec j 0) as [->|N]; [rewrite nth_error_upd_eq by lia; exists v; split; [reflexivity|]|].
  - rewrite Forall_forall in F. apply F. eapply nth_error_In. exact Ev.
  - rewrite nth_error_upd_neq by auto. destruct (get_lt m j Hj) as (u & Eu & _). exists u. split; [exact Eu|]. rewrite Forall_forall in F. apply F. eapply nth_error_In. exact Eu.
Qed.
Lemma upd_words m i v : Forall word m -> word v -> Forall word (upd m i v).
Proof. intros F W. revert i. induction F as [|a m Ha F IH]; intros [|i]; cbn [upd]; constructor; auto. Qed.
Lemma array_loop1_ok seeds : seeds <> [] -> forall k i j m, length m = 624%nat -> Forall word m -> (0 < i < 624)%nat -> (j < length seeds)%nat ->
  exists i' m', array_loop1 k i j seeds m = Ok (i', m') /\ (0 < i' < 624)%nat /\ length m' = 624%nat /\ Forall word m'.
Proof.
  intros NE. induction k as [|k IH]; intros i j m L F Hi Hj; cbn [array_loop1]; [exists i, m; auto|].
  destruct (get_lt m i) as (a & Ea & ->); [lia|]. destruct (get_lt m (i - 1)) as (p & Ep & ->); [lia|]. destruct (get_lt seeds j Hj) as (sd & Es & ->). cbn [bind]. rewrite put_ok by lia. cbn [bind].
  set (v := (_ + _ + _) mod 2 ^ 32). assert (Fv : Forall word (upd m i v)) by (apply upd_words; [exact F|apply word_mod]).
  destruct (wrap_ok (upd m i v) (S i)) as (i1 & m1 & E1 & Hi1 & L1 & F1); [now rewrite length_upd|exact Fv|lia|]. rewrite E1. cbn [bind].
  apply IH; auto. destruct (Nat.leb_spec (length seeds) (S j)); [|lia]. destruct seeds; [congruence|cbn [length]; lia].
Qed.
Lemma array_loop2_ok : forall k i m, length m = 624%nat -> Forall word m -> (0 < i < 624)%nat -> exists m', array_loop2 k i m = Ok m' /\ length m' = 624%nat /\ Forall word m'.
Proof.
  induction k as [|k IH]; intros i m L F Hi; cbn [array_loop2]; [exists m; auto|].
  destruct (get_lt m i) as (a & Ea & ->); [lia|]. destruct (get_lt m (i - 1)) as (p & Ep & ->); [lia|]. cbn [bind]. rewrite put_ok by lia. cbn [bind].
  set (v := (_ - _) mod 2 ^ 32). assert (Fv : Forall word (upd m i v)) by (apply upd_words; [exact F|apply word_mod]).
  destruct (wrap_ok (upd m i v) (S i)) as (i1 & m1 & E1 & Hi1 & L1 & F1); [now rewrite length_upd|exact Fv|lia|]. rewrite E1. cbn [bind]. now apply IH.
Qed.
Lemma initArray_holds m seeds : length m = 624%nat -> seeds <> [] -> exists s x, mt_initArray m seeds = Ok s /\ mti s = 624%nat /\ holds x 0 s /\ mt_sequence x /\ alive x 0.
Proof.
  intros L NE. unfold mt_initArray. destruct (init_spec m 19650218 L) as (s & E & Ls & M & _); [unfold word; lia|]. pose proof (init_words m 19650218 s L ltac:(unfold word; lia) E) as Fw. rewrite E. cbn [bind].
  set (k := if (length seeds <? MT_N)%nat then MT_N else length seeds).
  destruct (array_loop1_ok seeds NE k 1 0 (mt s) Ls Fw) as (i1 & m1 & -> & Hi1 & L1 & F1); [lia|destruct seeds; [congruence|cbn [length]; lia]|]. cbn [bind].
  destruct (array_loop2_ok (MT_N - 1) i1 m1 L1 F1 Hi1) as (m2 & -> & L2 & F2). cbn [bind]. rewrite put_ok by lia. cbn [bind].
  set (m3 := upd m2 0 2147483648). assert (L3 : length m3 = 624%nat) by (unfold m3; now rewrite length_upd). assert (F3 : Forall word m3) by (apply upd_words; [exact F2|unfold word; lia]).
  exists (mk_mts m3 (mti s) (seed_used s)), (seq_of m3). cbn [mt mti]. split; [reflexivity|]. split; [exact M|]. assert (N := fun j => seq_of_first m3 j L3 F3). split; [split; [exact L3|exact N]|].
  split; [now apply seq_of_sequence|]. left. assert (Q := N 0%nat ltac:(lia)). unfold m3 in Q at 1. rewrite nth_error_upd_eq in Q by lia. injection Q as <-. lia.
Qed.
Lemma initArray_deterministic m m' seeds : length m = 624%nat -> length m' = 624%nat -> mt_initArray m seeds = mt_initArray m' seeds.
Proof. intros L L'. unfold mt_initArray. now rewrite (init_deterministic m m' 19650218) by (auto; unfold word; lia). Qed.
