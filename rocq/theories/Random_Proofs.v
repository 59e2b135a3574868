(** Proofs about RandomTempl and MT_random_shuffle. *)
From Coq Require Import List Arith ZArith Lia Bool Permutation ZifyBool ZifyNat.
From Verif Require Import Common CommonFacts ListFacts Random_Spec Random_Model.
Import ListNotations.
Local Open Scope Z_scope.

Lemma lor_add a b : 0 <= a -> 0 <= b < 2 ^ 32 -> Z.lor (a * 2 ^ 32) b = a * 2 ^ 32 + b.
Proof.
  intros Ha Hb. rewrite <- Z.shiftl_mul_pow2 by lia.
  assert (L : Z.land (Z.shiftl a 32) b = 0).
  { apply Z.bits_inj'. intros i Hi. rewrite Z.land_spec, Z.bits_0. destruct (Z_lt_le_dec i 32) as [C|C].
    - now rewrite Z.shiftl_spec_low by exact C.
    - replace b with (b mod 2 ^ 32) by (apply Z.mod_small; lia). rewrite Z.mod_pow2_bits_high by lia. apply andb_false_r. }
  rewrite Z.add_nocarry_lxor by exact L. symmetry. now apply Z.lxor_lor.
Qed.
Lemma land_1 r : Z.land r 1 = r mod 2.
Proof. exact (Z.land_ones r 1 ltac:(lia)). Qed.
Lemma low_bit r : negb (Z.land r 1 =? 0) = Z.odd r.
Proof. rewrite land_1, Zmod_odd. destruct (Z.odd r); reflexivity. Qed.

Section gen.
Context {G : Type}.
Variable next : G -> res (Z * G).
Lemma longlong_ok a b g g' : 0 <= a < 2 ^ 32 -> 0 <= b < 2 ^ 32 -> emits next g [a; b] g' -> randLongLong next g = Ok (a * 2 ^ 32 + b, g').
Proof.
  intros Ha Hb E. inversion E as [|? ? g1 ? ? E1 T]; subst. inversion T as [|? ? g2 ? ? E2 T2]; subst. inversion T2; subst.
  unfold randLongLong. rewrite E1. cbn [bind]. rewrite E2. cbn [bind]. rewrite Z.shiftl_mul_pow2 by lia. rewrite Z.mod_small by lia. rewrite lor_add by lia. reflexivity.
Qed.
(** [k] bits of [x] from bit [i] on *)
Lemma fast_drain k : forall i x g, (k <= 64)%nat -> fast_bools next k (mk_fast g (Z.of_nat k) (Z.shiftr x i)) =
  Ok (map (fun j => Z.testbit x (i + Z.of_nat j)) (seq 0 k), mk_fast g 0 (Z.shiftr x (i + Z.of_nat k))) \/ i < 0.
Proof.
  induction k as [|k IH]; intros i x g Hk.
  - left. cbn. now rewrite Z.add_0_r.
  - destruct (Z_lt_le_dec i 0) as [N|P]; [now right|left]. cbn [fast_bools]. unfold randBoolFast. cbn [boolShift f_gen boolState].
    replace (Z.of_nat (S k) =? 0) with false by lia. cbn [bind]. rewrite low_bit. rewrite Z.shiftr_shiftr by lia.
    replace ((Z.of_nat (S k) - 1) mod 2 ^ 8) with (Z.of_nat k) by (rewrite Z.mod_small; lia).
    destruct (IH (i + 1) x g ltac:(lia)) as [-> |]; [|lia]. cbn [bind]. f_equal. f_equal.
    + cbn [seq map]. f_equal. * rewrite <- Z.bit0_odd, Z.shiftr_spec by lia. f_equal. lia.
      * rewrite <- seq_shift, map_map. apply map_ext. intros j. f_equal. lia.
    + f_equal. f_equal. lia.
Qed.
Lemma fast_S k s : fast_bools next (S k) s = let! (b, s) := randBoolFast next s in let! (l, s) := fast_bools next k s in Ok (b :: l, s).
Proof. reflexivity. Qed.
Lemma fast_word a b g g' x : 0 <= a < 2 ^ 32 -> 0 <= b < 2 ^ 32 -> emits next g [a; b] g' ->
  fast_bools next 64 (mk_fast g 0 x) = Ok (bits64 (a * 2 ^ 32 + b), mk_fast g' 0 0).
Proof.
  intros Ha Hb E. pose proof (longlong_ok a b g g' Ha Hb E) as L. set (w := a * 2 ^ 32 + b) in *.
  destruct (fast_drain 64 0 w g' ltac:(lia)) as [D|]; [|lia]. rewrite Z.shiftr_0_r in D.
  assert (Q : randBoolFast next (mk_fast g 0 x) = randBoolFast next (mk_fast g' (Z.of_nat 64) w)).
  { unfold randBoolFast. cbn [boolShift f_gen boolState]. rewrite L. reflexivity. }
  rewrite (fast_S 63) in D |- *. rewrite Q. etransitivity; [exact D|]. unfold bits64. f_equal. f_equal. f_equal.
  change (0 + Z.of_nat 64) with 64. rewrite Z.shiftr_div_pow2 by lia. apply Z.div_small. unfold w. lia.
Qed.
Lemma fast_app m n : forall s, fast_bools next (m + n) s = let! (l1, s) := fast_bools next m s in let! (l2, s) := fast_bools next n s in Ok (l1 ++ l2, s).
Proof.
  induction m as [|m IH]; intros s; cbn [Nat.add fast_bools bind app].
  - destruct (fast_bools next n s) as [[l s']| | |]; reflexivity.
  - destruct (randBoolFast next s) as [[b s']| | |]; cbn [bind]; try reflexivity. rewrite IH.
    destruct (fast_bools next m s') as [[l s'']| | |]; cbn [bind]; try reflexivity. destruct (fast_bools next n s'') as [[l2 s3]| | |]; reflexivity.
Qed.
Lemma emits_app l1 : forall l2 g g', emits next g (l1 ++ l2) g' -> exists gm, emits next g l1 gm /\ emits next gm l2 g'.
Proof.
  induction l1 as [|r l1 IH]; intros l2 g g' E; cbn [app] in E; [exists g; split; [constructor|exact E]|].
  inversion E as [|? ? g1 ? ? E1 T]; subst. destruct (IH _ _ _ T) as (gm & A & B). exists gm. split; [econstructor; eassumption|exact B].
Qed.
Lemma fast_words ws : forall g g' x, Forall (fun w => 0 <= fst w < 2 ^ 32 /\ 0 <= snd w < 2 ^ 32) ws ->
  emits next g (flat_map (fun w => [fst w; snd w]) ws) g' ->
  exists y, fast_bools next (64 * length ws) (mk_fast g 0 x) = Ok (flat_map (fun w => bits64 (fst w * 2 ^ 32 + snd w)) ws, mk_fast g' 0 y).
Proof.
  induction ws as [|[a b] ws IH]; intros g g' x F E.
  - cbn [flat_map] in E. inversion E; subst. exists x. reflexivity.
  - inversion F as [|? ? (Ha & Hb) F']; subst. cbn [flat_map fst snd length] in *. destruct (emits_app [a; b] _ _ _ E) as (gm & A & B).
    replace (64 * S (length ws))%nat with (64 + 64 * length ws)%nat by lia. rewrite fast_app. rewrite (fast_word a b g gm x Ha Hb A). cbn [bind].
    destruct (IH gm g' 0 F' B) as (y & ->). cbn [bind]. now exists y.
Qed.
End gen.

(** Which draws are accepted. *)
Lemma accept_iff umax max r : 0 < max <= umax -> umax < 2 ^ 32 -> 0 <= r ->
  accept umax max r = if r <? umax / max * max then Some (r mod max) else None.
Proof.
  intros Hm Hu Hr. unfold accept. rewrite (Z.mod_small (umax - max)) by lia.
  pose proof (Z.div_mod umax max ltac:(lia)). pose proof (Z.mod_pos_bound umax max ltac:(lia)). rewrite (Z.mul_comm (umax / max)). set (q := max * (umax / max)) in *.
  destruct (Z.gtb_spec (umax - max) r); destruct (Z.gtb_spec q r); destruct (Z.ltb_spec r q); lia || reflexivity.
Qed.
(** The draws below [k*max] with remainder [v] *)
Definition residues (max v : Z) (k : nat) : list Z := map (fun i => v + Z.of_nat i * max) (seq 0 k).
Lemma residues_spec max v k r : 0 < max -> 0 <= v < max -> (In r (residues max v k) <-> 0 <= r < Z.of_nat k * max /\ r mod max = v).
Proof.
  intros Hm Hv. unfold residues. rewrite in_map_iff. split.
  - intros (i & <- & Hi). apply in_seq in Hi. split; [nia|]. rewrite Z.mod_add by lia. apply Z.mod_small. lia.
  - intros ((H1 & H2) & E). pose proof (Z.div_mod r max ltac:(lia)) as M. exists (Z.to_nat (r / max)). assert (0 <= r / max) by (apply Z.div_pos; lia).
    assert (r / max < Z.of_nat k) by (apply Z.div_lt_upper_bound; lia). split; [rewrite Z2Nat.id by lia; lia|]. apply in_seq. lia.
Qed.
Lemma residues_nodup max v k : 0 < max -> NoDup (residues max v k).
Proof.
  intros Hm. unfold residues. apply FinFun.Injective_map_NoDup; [|apply seq_NoDup]. intros i j E. nia.
Qed.
Lemma accepts_exactly umax max v : 0 < max <= umax -> umax < 2 ^ 32 -> 0 <= v < max ->
  numbers (fun r => 0 <= r < 2 ^ 32 /\ accept umax max r = Some v) (umax / max).
Proof.
  intros Hm Hu Hv. assert (Q : 0 <= umax / max) by (apply Z.div_pos; lia). exists (residues max v (Z.to_nat (umax / max))).
  split; [apply residues_nodup; lia|]. split; [|unfold residues; rewrite map_length, seq_length; lia].
  intros r. rewrite residues_spec by lia. rewrite Z2Nat.id by lia. pose proof (Z.mul_div_le umax max ltac:(lia)) as HM. split.
  - intros (H & E). split; [lia|]. rewrite accept_iff by lia. replace (r <? umax / max * max) with true by lia. now f_equal.
  - intros (H & E). rewrite accept_iff in E by lia. destruct (Z.ltb_spec r (umax / max * max)); [|discriminate]. split; [lia|]. congruence.
Qed.

Lemma unbiased_run {G} (next : G -> res (Z * G)) umax max rej r v g g' fuel : max <> 0 -> Forall (fun x => accept umax max x = None) rej -> accept umax max r = Some v ->
  emits next g (rej ++ [r]) g' -> (length rej < fuel)%nat -> randIntUnbiased next umax max fuel g = Ok (v, g').
Proof.
  intros Hm F A. revert g fuel. induction F as [|x rej Hx F IH]; intros g fuel E Hf; cbn [app length] in *.
  - inversion E as [|? ? g1 ? ? E1 T]; subst. inversion T; subst. destruct fuel as [|fuel]; [lia|]. cbn [randIntUnbiased]. rewrite E1. cbn [bind]. replace (max =? 0) with false by lia. now rewrite A.
  - inversion E as [|? ? g1 ? ? E1 T]; subst. destruct fuel as [|fuel]; [lia|]. cbn [randIntUnbiased]. rewrite E1. cbn [bind]. replace (max =? 0) with false by lia. rewrite Hx. apply IH; [exact T|lia].
Qed.

(** Shuffling. *)
Section shuffle.
Context {A : Type}.
Definition swap (l : list A) (i j : nat) : list A :=
  match nth_error l i, nth_error l j with
  | Some x, Some y => upd (upd l i y) j x
  | _, _ => l
  end.
Lemma iter_swap_ok (l : list A) i j : (i < length l)%nat -> (j < length l)%nat -> iter_swap l i j = Ok (swap l i j).
Proof.
  intros Hi Hj. unfold iter_swap, swap. destruct (get_lt l i Hi) as (x & Ex & ->). destruct (get_lt l j Hj) as (y & Ey & ->). cbn [bind]. rewrite Ex, Ey.
  rewrite put_ok by exact Hi. cbn [bind]. rewrite put_ok by (rewrite length_upd; exact Hj). reflexivity.
Qed.
Lemma length_swap (l : list A) i j : length (swap l i j) = length l.
Proof. unfold swap. destruct (nth_error l i); [|reflexivity]. destruct (nth_error l j); [|reflexivity]. now rewrite !length_upd. Qed.
Lemma nth_swap (l : list A) i j k : (i < length l)%nat -> (j < length l)%nat ->
  nth_error (swap l i j) k = if (k =? j)%nat then nth_error l i else if (k =? i)%nat then nth_error l j else nth_error l k.
Proof.
  intros Hi Hj. unfold swap. destruct (get_lt l i Hi) as (x & Ex & _). destruct (get_lt l j Hj) as (y & Ey & _). rewrite Ex, Ey.
  destruct (Nat.eqb_spec k j) as [->|N].
  - rewrite nth_error_upd_eq; [reflexivity|]. now rewrite length_upd.
  - rewrite nth_error_upd_neq by auto. destruct (Nat.eqb_spec k i) as [->|N']; [now apply nth_error_upd_eq|]. apply nth_error_upd_neq. auto.
Qed.
Lemma swap_invol (l : list A) i j : (i < length l)%nat -> (j < length l)%nat -> swap (swap l i j) i j = l.
Proof.
  intros Hi Hj. apply nth_error_ext. intros k. rewrite nth_swap by (rewrite length_swap; assumption). rewrite !nth_swap by assumption.
  destruct (Nat.eqb_spec k j) as [->|N]; [destruct (Nat.eqb_spec i j) as [->|]; [reflexivity|now rewrite Nat.eqb_refl]|].
  destruct (Nat.eqb_spec k i) as [->|N']; [now rewrite Nat.eqb_refl|reflexivity].
Qed.
Lemma swap_perm (l : list A) i j : (i < length l)%nat -> (j < length l)%nat -> Permutation l (swap l i j).
Proof.
  intros Hi Hj. apply Permutation_nth_error. split; [now rewrite length_swap|].
  exists (fun k => if (k =? j)%nat then i else if (k =? i)%nat then j else k). split.
  - intros a b. destruct (Nat.eqb_spec a j), (Nat.eqb_spec b j), (Nat.eqb_spec a i), (Nat.eqb_spec b i); lia.
  - intros k. rewrite nth_swap by assumption. destruct (Nat.eqb_spec k j); [reflexivity|]. now destruct (Nat.eqb_spec k i).
Qed.
Lemma swap_app (l : list A) x i j : (i < length l)%nat -> (j < length l)%nat -> swap (l ++ [x]) i j = swap l i j ++ [x].
Proof.
  intros Hi Hj. assert (U : forall (l : list A) k a, (k < length l)%nat -> upd (l ++ [x]) k a = upd l k a ++ [x]).
  { clear. induction l as [|y l IH]; intros [|k] a H; cbn [length] in H; try lia; cbn [app upd]; [reflexivity|]. rewrite IH by lia. reflexivity. }
  unfold swap. rewrite !nth_error_app1 by assumption. destruct (get_lt l i Hi) as (a & Ea & _). destruct (get_lt l j Hj) as (b & Eb & _). rewrite Ea, Eb.
  rewrite U by exact Hi. apply U. now rewrite length_upd.
Qed.

(** The swaps for given choices. *)
Fixpoint swaps (cs : list nat) (i : nat) (l : list A) : list A :=
  match cs with [] => l | c :: cs => swaps cs (S i) (swap l i c) end.
Fixpoint choices_ok (cs : list nat) (i : nat) : Prop :=
  match cs with [] => True | c :: cs => (c <= i)%nat /\ choices_ok cs (S i) end.
Lemma length_swaps cs : forall i l, length (swaps cs i l) = length l.
Proof. induction cs as [|c cs IH]; intros i l; cbn [swaps]; [reflexivity|]. now rewrite IH, length_swap. Qed.
Lemma loop_swaps {G} (next : G -> res (Z * G)) rs : forall i l g g',
  (i + length rs <= length l)%nat -> Z.of_nat (length l) < 2 ^ 32 -> Forall (fun r => 0 <= r) rs -> emits next g rs g' ->
  shuffle_loop next (length rs) i l g = Ok (swaps (choices i rs) i l, g') /\ choices_ok (choices i rs) i.
Proof.
  induction rs as [|r rs IH]; intros i l g g' Hi Hl F E; cbn [length shuffle_loop choices swaps choices_ok] in *.
  - inversion E; subst. auto.
  - inversion E as [|? ? g1 ? ? E1 T]; subst. inversion F as [|? ? Hr F']; subst. unfold randIntMax. rewrite E1. cbn [bind].
    rewrite (Z.mod_small (Z.of_nat i + 1)) by lia. replace (Z.of_nat i + 1 =? 0) with false by lia. cbn [bind].
    replace (Z.of_nat (S i)) with (Z.of_nat i + 1) in * by lia. pose proof (Z.mod_pos_bound r (Z.of_nat i + 1) ltac:(lia)) as B. rewrite iter_swap_ok by lia. cbn [bind].
    destruct (IH (S i) (swap l i (Z.to_nat (r mod (Z.of_nat i + 1)))) g1 g') as (A1 & A2); try (rewrite length_swap); try lia; auto.
    split; [exact A1|]. split; [lia|exact A2].
Qed.
Lemma swaps_app cs : forall c i l, swaps (cs ++ [c]) i l = swap (swaps cs i l) (i + length cs) c.
Proof.
  induction cs as [|d cs IH]; intros c i l; cbn [app swaps length]; [now rewrite Nat.add_0_r|]. rewrite IH. f_equal. lia.
Qed.
Lemma choices_ok_app cs : forall c i, choices_ok (cs ++ [c]) i <-> choices_ok cs i /\ (c <= i + length cs)%nat.
Proof.
  induction cs as [|d cs IH]; intros c i; cbn [app choices_ok length]; [rewrite Nat.add_0_r; tauto|]. rewrite IH. replace (S i + length cs)%nat with (i + S (length cs))%nat by lia. tauto.
Qed.
Lemma swaps_tail cs : forall i l x, choices_ok cs i -> (i + length cs <= length l)%nat -> swaps cs i (l ++ [x]) = swaps cs i l ++ [x].
Proof.
  induction cs as [|c cs IH]; intros i l x C H; cbn [swaps choices_ok length] in *; [reflexivity|]. destruct C as (C1 & C2). rewrite swap_app by lia. apply IH; [exact C2|]. rewrite length_swap. lia.
Qed.
Lemma swaps_perm cs : forall i l, choices_ok cs i -> (i + length cs <= length l)%nat -> Permutation l (swaps cs i l).
Proof.
  induction cs as [|c cs IH]; intros i l C H; cbn [swaps choices_ok length] in *; [reflexivity|]. destruct C as (C1 & C2).
  etransitivity; [apply (swap_perm l i c); lia|]. apply IH; [exact C2|]. rewrite length_swap. lia.
Qed.
Lemma last_elt (l : list A) n x : length l = S n -> nth_error l n = Some x -> exists l0, l = l0 ++ [x] /\ length l0 = n.
Proof.
  intros H E. destruct (exists_last (l := l)) as (l0 & y & ->); [intros ->; discriminate|]. rewrite app_length in H. cbn [length] in H. assert (length l0 = n) by lia. subst n.
  rewrite nth_error_app2 in E by lia. rewrite Nat.sub_diag in E. injection E as ->. eauto.
Qed.
(** Every permutation comes from some choices ... *)
Lemma swaps_onto (l : list A) : forall l', Permutation l l' -> l <> [] -> exists cs, length cs = pred (length l) /\ choices_ok cs 1 /\ swaps cs 1 l = l'.
Proof.
  induction l as [|x l IH] using rev_ind; intros l' P N; [congruence|].
  assert (Hn : length l' = S (length l)) by (apply Permutation_length in P; rewrite app_length in P; cbn [length] in P; lia).
  destruct l as [|y l].
  - cbn [app length] in *. apply Permutation_length_1_inv in P. subst l'. exists []. cbn. auto.
  - set (l0 := y :: l) in *. assert (I : In x l') by (eapply Permutation_in; [exact P|apply in_or_app; right; now left]).
    destruct (In_nth_error _ _ I) as (r & Er). pose proof (nth_error_lt _ _ _ Er) as Lr.
    set (l'' := swap l' (length l0) r). assert (E'' : nth_error l'' (length l0) = Some x).
    { unfold l''. rewrite nth_swap by lia. rewrite Nat.eqb_refl. destruct (Nat.eqb_spec (length l0) r) as [->|]; exact Er. }
    destruct (last_elt l'' (length l0) x) as (m & Em & Lm); [unfold l''; rewrite length_swap; exact Hn|exact E''|].
    assert (Pm : Permutation l0 m).
    { apply Permutation_app_inv_r with [x]. rewrite <- Em. etransitivity; [exact P|]. apply swap_perm; lia. }
    destruct (IH m Pm) as (cs & Lc & Cc & Sc); [discriminate|]. exists (cs ++ [r]).
    assert (L1 : (1 + length cs = length l0)%nat) by (rewrite Lc; unfold l0; cbn [length]; lia).
    split; [rewrite !app_length; cbn [length]; lia|]. split; [apply choices_ok_app; split; [exact Cc|lia]|].
    rewrite swaps_app, swaps_tail by (try exact Cc; lia). rewrite Sc, <- Em, L1. unfold l''. apply swap_invol; lia.
Qed.
(** ... and from only one, when the elements differ. *)
Lemma swaps_inj (l : list A) : NoDup l -> forall cs cs', length cs = pred (length l) -> length cs' = pred (length l) -> choices_ok cs 1 -> choices_ok cs' 1 ->
  swaps cs 1 l = swaps cs' 1 l -> cs = cs'.
Proof.
  induction l as [|x l IH] using rev_ind; intros ND cs cs' L L' C C' E.
  - destruct cs; [|discriminate]. destruct cs'; [reflexivity|discriminate].
  - rewrite app_length in L, L'. cbn [length] in L, L'. destruct l as [|y l]; [destruct cs; [|discriminate]; destruct cs'; [reflexivity|discriminate]|].
    set (l0 := y :: l) in *. assert (Ll : length l0 = S (length l)) by reflexivity.
    destruct (exists_last (l := cs)) as (ds & d & ->); [intros ->; cbn [length] in L; lia|]. destruct (exists_last (l := cs')) as (ds' & d' & ->); [intros ->; cbn [length] in L'; lia|].
    rewrite app_length in L, L'. cbn [length] in L, L'. apply choices_ok_app in C, C'. destruct C as (C1 & C2), C' as (C1' & C2').
    rewrite !swaps_app in E. rewrite !swaps_tail in E by (try assumption; lia). replace (1 + length ds)%nat with (length l0) in * by lia. replace (1 + length ds')%nat with (length l0) in * by lia.
    set (m := swaps ds 1 l0) in *. set (m' := swaps ds' 1 l0) in *.
    assert (Lm : length m = length l0) by apply length_swaps. assert (Lm' : length m' = length l0) by apply length_swaps.
    assert (Q : forall (m : list A) d, length m = length l0 -> (d <= length l0)%nat -> nth_error (swap (m ++ [x]) (length l0) d) d = Some x).
    { intros q e Lq He. rewrite nth_swap by (rewrite app_length; cbn [length]; lia). rewrite Nat.eqb_refl. rewrite nth_error_app2 by lia. rewrite Lq, Nat.sub_diag. reflexivity. }
    assert (NDs : NoDup (swap (m ++ [x]) (length l0) d)).
    { eapply Permutation_NoDup; [apply swap_perm; rewrite app_length; cbn [length]; lia|]. eapply Permutation_NoDup; [|exact ND]. apply Permutation_app_tail. apply swaps_perm; [exact C1|lia]. }
    assert (D : d = d').
    { pose proof (Q m d Lm C2) as Q1. pose proof (Q m' d' Lm' C2') as Q2. rewrite <- E in Q2. rewrite NoDup_nth_error in NDs. apply NDs; [rewrite length_swap, app_length; cbn [length]; lia|congruence]. }
    subst d'. assert (Em : m ++ [x] = m' ++ [x]).
    { rewrite <- (swap_invol (m ++ [x]) (length l0) d) by (rewrite app_length; cbn [length]; lia). rewrite E. apply swap_invol; rewrite app_length; cbn [length]; lia. }
    apply app_inj_tail in Em. destruct Em as (Em & _). f_equal. apply IH; auto; [|lia|lia]. now apply NoDup_app_l in ND.
Qed.
End shuffle.
