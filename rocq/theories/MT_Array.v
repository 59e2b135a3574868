(** Proofs about seeding the Mersenne Twister with an array. *)
From Coq Require Import List Arith ZArith Lia Bool ZifyBool ZifyNat.
From Verif Require Import Common CommonFacts ListFacts Random_Spec MT_Spec MT_Model MT_Proofs.
Import ListNotations.
Local Open Scope Z_scope.

(** [y] written so far: [t] words after the first 624. *)
Definition written (y : nat -> Z) (t : nat) (m : list Z) : Prop :=
  length m = 624%nat /\ (forall k, (t < k <= t + 623)%nat -> nth_error m (1 + (k - 1) mod 623) = Some (y k)) /\
  nth_error m (t mod 623) = Some (if (t =? 0)%nat then y 0%nat else y (623 + t)%nat).
Lemma mod_S t : (S t mod 623 = if t mod 623 =? 622 then 0 else S (t mod 623))%nat.
Proof.
  pose proof (Nat.div_mod t 623 ltac:(lia)) as M. pose proof (Nat.mod_upper_bound t 623 ltac:(lia)) as B. destruct (Nat.eqb_spec (t mod 623) 622) as [E|E].
  - symmetry. apply (Nat.mod_unique _ _ (S (t / 623))); lia.
  - symmetry. apply (Nat.mod_unique _ _ (t / 623)); lia.
Qed.
Lemma written_step y t m v : written y t m -> v = y (624 + t)%nat ->
  exists m', (if Nat.leb MT_N (S (1 + t mod 623)) then let! l := get (upd m (1 + t mod 623) v) (MT_N - 1) in let! m' := put (upd m (1 + t mod 623) v) 0 l in Ok (1%nat, m') else Ok (S (1 + t mod 623), upd m (1 + t mod 623) v))
    = Ok (1 + S t mod 623, m')%nat /\ written y (S t) m'.
Proof.
  intros (L & W & P) ->. pose proof (Nat.mod_upper_bound t 623 ltac:(lia)) as B. change MT_N with 624%nat. change (624 - 1)%nat with 623%nat. rewrite mod_S.
  set (i := (1 + t mod 623)%nat). set (m1 := upd m i (y (624 + t)%nat)). assert (L1 : length m1 = 624%nat) by (unfold m1; now rewrite length_upd).
  assert (N : forall k, (S t < k <= S t + 623)%nat -> nth_error m1 (1 + (k - 1) mod 623) = Some (y k)).
  { intros k Hk. destruct (Nat.eq_dec k (624 + t)) as [->|NE].
    - replace ((624 + t - 1) mod 623)%nat with (t mod 623)%nat by (replace (624 + t - 1)%nat with (t + 1 * 623)%nat by lia; now rewrite Nat.mod_add by lia). unfold m1. rewrite nth_error_upd_eq by (unfold i; lia). reflexivity.
    - unfold m1. rewrite nth_error_upd_neq; [apply W; lia|]. unfold i. intros E. assert (E' : ((k - 1) mod 623 = t mod 623)%nat) by lia.
      pose proof (Nat.div_mod (k - 1) 623 ltac:(lia)) as M1. pose proof (Nat.div_mod t 623 ltac:(lia)) as M2. rewrite E' in M1. set (a := ((k - 1) / 623)%nat) in *. set (b := (t / 623)%nat) in *. nia. }
  assert (Q : nth_error m1 i = Some (y (623 + S t)%nat)) by (unfold m1; rewrite nth_error_upd_eq by (unfold i; lia); do 2 f_equal; lia).
  destruct (Nat.eqb_spec (t mod 623) 622) as [E|E].
  - replace (624 <=? S i)%nat with true by (unfold i; lia). assert (I : i = 623%nat) by (unfold i; lia). pose proof Q as Q'. rewrite I in Q'. rewrite (get_Some m1 623 _ Q'). cbn [bind]. rewrite put_ok by lia. cbn [bind]. eexists. split; [reflexivity|].
    split; [now rewrite length_upd|]. split; [intros k Hk; rewrite nth_error_upd_neq by lia; now apply N|]. rewrite mod_S, E. cbn [Nat.eqb]. rewrite nth_error_upd_eq by lia. reflexivity.
  - replace (624 <=? S i)%nat with false by (unfold i; lia). eexists. split; [unfold i; do 3 f_equal; lia|]. split; [exact L1|]. split; [exact N|]. rewrite mod_S. rewrite (proj2 (Nat.eqb_neq _ _) E). cbn [Nat.eqb]. exact Q.
Qed.
Lemma old_word y t m : written y t m -> nth_error m (1 + t mod 623) = Some (y (1 + t)%nat).
Proof. intros (_ & W & _). rewrite <- (W (1 + t)%nat) by lia. do 2 f_equal. f_equal. lia. Qed.
Lemma scramble_spec p : scramble p = Z.lxor p (p / 2 ^ 30).
Proof. unfold scramble. now rewrite Z.shiftr_div_pow2 by lia. Qed.
Lemma next_index j n : (0 < n)%nat -> (if Nat.leb n (S (j mod n)) then 0 else S (j mod n))%nat = (S j mod n)%nat.
Proof.
  intros H. pose proof (Nat.div_mod j n ltac:(lia)) as M. pose proof (Nat.mod_upper_bound j n ltac:(lia)) as B. destruct (Nat.leb_spec n (S (j mod n))).
  - apply (Nat.mod_unique _ _ (S (j / n))); nia.
  - apply (Nat.mod_unique _ _ (j / n)); lia.
Qed.
Section array.
Variable seeds : list Z.
Hypothesis NE : seeds <> [].
Variable y : nat -> Z.
Hypothesis Y : mt_array_seeded seeds y.
Lemma seeds_pos : (0 < length seeds)%nat.
Proof. destruct seeds; [congruence|cbn [length]; lia]. Qed.
Lemma loop1_written : forall k t m, written y t m -> (t + k <= mt_rounds seeds)%nat ->
  exists m', array_loop1 k (1 + t mod 623) (t mod length seeds) seeds m = Ok (1 + (t + k) mod 623, m')%nat /\ written y (t + k) m'.
Proof.
  pose proof seeds_pos as SP. destruct Y as (_ & Y1 & _). induction k as [|k IH]; intros t m W H; cbn [array_loop1]; [exists m; rewrite Nat.add_0_r; auto|].
  rewrite (get_Some _ _ _ (old_word y t m W)). cbn [bind]. replace (1 + t mod 623 - 1)%nat with (t mod 623)%nat by lia. destruct W as (L & W & P). rewrite (get_Some _ _ _ P). cbn [bind].
  pose proof (Nat.mod_upper_bound t (length seeds) ltac:(lia)) as B. pose proof (Nat.mod_upper_bound t 623 ltac:(lia)) as B'. rewrite (get_Some seeds _ (nth (t mod length seeds) seeds 0)) by (apply nth_error_nth'; exact B). cbn [bind]. rewrite put_ok by lia. cbn [bind].
  destruct (written_step y t m ((Z.lxor (y (1 + t)%nat) (scramble (if (t =? 0)%nat then y 0%nat else y (623 + t)%nat) * 1664525) + nth (t mod length seeds) seeds 0 + Z.of_nat (t mod length seeds)) mod 2 ^ 32)) as (m1 & E1 & W1); [split; [exact L|split; [exact W|exact P]]| |].
  - rewrite Y1 by lia. rewrite scramble_spec. reflexivity.
  - rewrite E1. cbn [bind]. rewrite next_index by exact SP. destruct (IH (S t) m1 W1) as (m' & E & W'); [lia|]. exists m'. replace (t + S k)%nat with (S t + k)%nat by lia. split; [exact E|exact W'].
Qed.
Lemma loop2_written : forall k t m, written y t m -> (mt_rounds seeds <= t)%nat -> (t + k <= mt_rounds seeds + 623)%nat ->
  exists m', array_loop2 k (1 + t mod 623) m = Ok m' /\ written y (t + k) m'.
Proof.
  destruct Y as (_ & _ & Y2). induction k as [|k IH]; intros t m W H0 H; cbn [array_loop2]; [exists m; rewrite Nat.add_0_r; auto|].
  rewrite (get_Some _ _ _ (old_word y t m W)). cbn [bind]. replace (1 + t mod 623 - 1)%nat with (t mod 623)%nat by lia. destruct W as (L & W & P). rewrite (get_Some _ _ _ P). cbn [bind].
  pose proof (Nat.mod_upper_bound t 623 ltac:(lia)) as B'. rewrite put_ok by lia. cbn [bind]. assert (T0 : (t =? 0)%nat = false) by (unfold mt_rounds in H0; lia).
  destruct (written_step y t m ((Z.lxor (y (1 + t)%nat) (scramble (if (t =? 0)%nat then y 0%nat else y (623 + t)%nat) * 1566083941) - Z.of_nat (1 + t mod 623)) mod 2 ^ 32)) as (m1 & E1 & W1); [split; [exact L|split; [exact W|exact P]]| |].
  - rewrite Y2 by lia. rewrite T0, scramble_spec. reflexivity.
  - rewrite E1. cbn [bind]. destruct (IH (S t) m1 W1) as (m' & E & W'); [lia|lia|]. exists m'. replace (t + S k)%nat with (S t + k)%nat by lia. split; [exact E|exact W'].
Qed.
Lemma array_spec m : length m = 624%nat -> exists s, mt_initArray m seeds = Ok s /\ length (mt s) = 624%nat /\
  nth_error (mt s) 0 = Some (2 ^ 31) /\ forall t, (mt_rounds seeds <= t < mt_rounds seeds + 623)%nat -> nth_error (mt s) (1 + t mod 623) = Some (y (624 + t)%nat).
Proof.
  intros L. unfold mt_initArray. destruct (init_spec m 19650218 L) as (s & E & Ls & M & _ & H0 & HS); [unfold word; lia|]. rewrite E. cbn [bind]. destruct Y as ((Y0 & YS) & _).
  assert (N : forall j, (j < 624)%nat -> nth_error (mt s) j = Some (y j)).
  { induction j as [|j IH]; intros Hj; [congruence|]. destruct (HS (S j) ltac:(lia)) as (p & A & B). replace (S j - 1)%nat with j in * by lia. rewrite IH in A by lia. injection A as <-. rewrite B, (YS (S j)) by lia. replace (S j - 1)%nat with j by lia. now rewrite scramble_spec. }
  assert (W0 : written y 0 (mt s)). { split; [exact Ls|]. split; [|apply N; lia]. intros k Hk. rewrite Nat.mod_small by lia. replace (1 + (k - 1))%nat with k by lia. apply N. lia. }
  replace (if (length seeds <? MT_N)%nat then MT_N else length seeds) with (mt_rounds seeds) by (unfold mt_rounds, MT_N; destruct (Nat.ltb_spec (length seeds) 624); lia).
  pose proof seeds_pos as SP. destruct (loop1_written (mt_rounds seeds) 0 (mt s) W0) as (m1 & E1 & W1); [lia|]. rewrite (Nat.mod_small 0 (length seeds)) in E1 by exact SP. change (0 mod 623)%nat with 0%nat in E1. cbn [Nat.add] in E1, W1. rewrite E1. cbn [bind].
  destruct (loop2_written 623 (mt_rounds seeds) m1 W1) as (m2 & E2 & L2 & W2 & _); [lia|lia|]. change (MT_N - 1)%nat with 623%nat. cbn [Nat.add] in E2. rewrite E2. cbn [bind]. rewrite put_ok by lia. cbn [bind]. eexists. split; [reflexivity|]. cbn [mt].
  split; [now rewrite length_upd|]. split; [now rewrite nth_error_upd_eq by lia|]. intros t Ht. rewrite nth_error_upd_neq by lia.
  rewrite <- (W2 (624 + t)%nat) by lia. f_equal. f_equal. replace (624 + t - 1)%nat with (t + 1 * 623)%nat by lia. now rewrite Nat.mod_add by lia.
Qed.
End array.

(** Such a [y] exists. *)
Fixpoint build (f : list Z -> Z) (n : nat) : list Z := match n with O => [] | S n => let l := build f n in l ++ [f l] end.
Lemma length_build f n : length (build f n) = n.
Proof. induction n as [|n IH]; cbn [build]; [reflexivity|]. rewrite app_length, IH. cbn [length]. lia. Qed.
Lemma nth_build f : forall n j, (j < n)%nat -> nth j (build f n) 0 = f (build f j).
Proof.
  induction n as [|n IH]; intros j H; [lia|]. cbn [build]. destruct (Nat.eq_dec j n) as [->|N].
  - rewrite app_nth2 by (rewrite length_build; lia). rewrite length_build, Nat.sub_diag. reflexivity.
  - rewrite app_nth1 by (rewrite length_build; lia). apply IH. lia.
Qed.
Definition array_word (seeds : list Z) (l : list Z) : Z :=
  let n := length l in
  if (n =? 0)%nat then 19650218
  else if (n <? 624)%nat then (1812433253 * Z.lxor (nth (n - 1) l 0) (nth (n - 1) l 0 / 2 ^ 30) + Z.of_nat n) mod 2 ^ 32
  else let t := (n - 624)%nat in
    if (t <? mt_rounds seeds)%nat then (mt_mix (nth (1 + t) l 0) (if (t =? 0)%nat then nth 0 l 0 else nth (623 + t) l 0) 1664525 + nth (t mod length seeds) seeds 0 + Z.of_nat (t mod length seeds)) mod 2 ^ 32
    else (mt_mix (nth (1 + t) l 0) (nth (623 + t) l 0) 1566083941 - Z.of_nat (1 + t mod 623)) mod 2 ^ 32.
Definition array_seq (seeds : list Z) (n : nat) : Z := nth n (build (array_word seeds) (S n)) 0.
Lemma array_seq_nth seeds n j : (j < n)%nat -> nth j (build (array_word seeds) n) 0 = array_seq seeds j.
Proof. intros H. unfold array_seq. rewrite !nth_build by lia. reflexivity. Qed.
Lemma array_seq_word seeds n : array_seq seeds n = array_word seeds (build (array_word seeds) n).
Proof. unfold array_seq. apply nth_build. lia. Qed.
Lemma array_seq_seeded seeds : mt_array_seeded seeds (array_seq seeds).
Proof.
  split; [split|split].
  - reflexivity.
  - intros i Hi. rewrite (array_seq_word seeds i). unfold array_word at 1. rewrite !length_build. replace (i =? 0)%nat with false by lia. replace (i <? 624)%nat with true by lia. rewrite array_seq_nth by lia. reflexivity.
  - intros t Ht. rewrite (array_seq_word seeds (624 + t)). unfold array_word at 1. rewrite !length_build. replace (624 + t =? 0)%nat with false by lia. replace (624 + t <? 624)%nat with false by lia. replace (624 + t - 624)%nat with t by lia. replace (t <? mt_rounds seeds)%nat with true by lia. rewrite !array_seq_nth by lia. reflexivity.
  - intros t Ht. rewrite (array_seq_word seeds (624 + t)). unfold array_word at 1. rewrite !length_build. replace (624 + t =? 0)%nat with false by lia. replace (624 + t <? 624)%nat with false by lia. replace (624 + t - 624)%nat with t by lia. replace (t <? mt_rounds seeds)%nat with false by lia. rewrite !array_seq_nth by lia. reflexivity.
Qed.
