(** C45 (tempering) and C67: the Mersenne Twister is MT19937 and never dies out. *)
From Coq Require Import List Arith ZArith Lia Bool ZifyBool ZifyNat.
From Verif Require Import Common CommonFacts Random_Spec Random_Model MT_Spec MT_Model MT_Proofs MT_Array.
Import ListNotations.
Local Open Scope Z_scope.

(** The tempering of a word is a bijection of the 32-bit words: nothing is lost, and every
    word can come out. *)
Theorem C45_temper_bijection : exists inverse, forall y, 0 <= y < 2 ^ 32 ->
  0 <= temper y < 2 ^ 32 /\ 0 <= inverse y < 2 ^ 32 /\ inverse (temper y) = y /\ temper (inverse y) = y.
Proof.
  exists untemper. intros y H. split; [now apply word_temper|]. split; [now apply word_untemper|]. split; [now apply untemper_temper|now apply temper_untemper].
Qed.
Print Assumptions C45_temper_bijection.

(** After init(seed), whatever the object held before, any number of randInt() calls
    succeed and hand out exactly the MT19937 sequence of that seed. *)
Lemma outputs_ok x n : map (fun i => temper (x (0 + 624 + i)%nat)) (seq 0 n) = mt_outputs x n.
Proof. unfold mt_outputs. apply map_ext. intros i. apply temper_spec. Qed.
Theorem C67_seeded_sequence : forall (before : list Z) seed, length before = 624%nat -> 0 <= seed < 2 ^ 32 ->
  exists s x, mt_init before seed = Ok s /\ mt_sequence x /\ mt_seeded seed x /\ forall n, exists s', emits mt_next s (mt_outputs x n) s'.
Proof.
  intros m seed L W. destruct (init_holds m seed L W) as (s & x & E & M & H & S & Sd & _). exists s, x. split; [exact E|]. split; [exact S|]. split; [exact Sd|].
  intros n. destruct (emits_outputs x S n 0 s H) as (s' & T); [lia|]. exists s'. rewrite M in T. rewrite outputs_ok in T. exact T.
Qed.
Print Assumptions C67_seeded_sequence.
(** The sequence is determined by the seed, so equal seeds give equal outputs. *)
Theorem C67_sequence_unique : forall seed x x', mt_sequence x -> mt_sequence x' -> mt_seeded seed x -> mt_seeded seed x' -> forall k, x k = x' k.
Proof.
  intros seed x x' (_ & R) (_ & R') (S0 & S) (S0' & S'). intros k. induction k as [k IH] using (well_founded_induction lt_wf).
  destruct (le_lt_dec 624 k) as [G|G].
  - replace k with (k - 624 + 624)%nat by lia. rewrite R, R'. rewrite !IH by lia. reflexivity.
  - destruct (Nat.eq_dec k 0) as [->|N]; [congruence|]. rewrite S, S' by lia. now rewrite IH by lia.
Qed.
Print Assumptions C67_sequence_unique.
(** Seeding with a nonempty array works for every array, does not depend on what the object
    held, and starts the sequence from the words the published array seeding gives; an
    empty array is undefined. *)
Theorem C67_array_seeded : forall (before before' seeds : list Z), length before = 624%nat -> length before' = 624%nat -> seeds <> [] ->
  exists s x y, mt_initArray before seeds = Ok s /\ mt_initArray before' seeds = Ok s /\ mt_sequence x /\ mt_array_seeded seeds y /\ mt_array_start seeds y x /\
    forall n, exists s', emits mt_next s (mt_outputs x n) s'.
Proof.
  intros m m' seeds L L' NE. destruct (initArray_holds m seeds L NE) as (s & x & E & M & H & S & A). exists s, x, (array_seq seeds). split; [exact E|]. split; [now rewrite (initArray_deterministic m' m seeds L' L)|]. split; [exact S|].
  split; [apply array_seq_seeded|]. split.
  - destruct (array_spec seeds NE (array_seq seeds) (array_seq_seeded seeds) m L) as (s1 & E1 & _ & A0 & AS). rewrite E in E1. injection E1 as <-. destruct H as (_ & H). split.
    + rewrite (H 0%nat ltac:(lia)) in A0. injection A0 as A0. exact A0.
    + intros t Ht. pose proof (Nat.mod_upper_bound t 623 ltac:(lia)) as B. specialize (AS t Ht). rewrite (H (1 + t mod 623)%nat ltac:(lia)) in AS. injection AS as AS. exact AS.
  - intros n. destruct (emits_outputs x S n 0 s H) as (s' & T); [lia|]. exists s'. rewrite M in T. rewrite outputs_ok in T. exact T.
Qed.
Print Assumptions C67_array_seeded.
Lemma empty_loop k m : length m = 624%nat -> array_loop1 (S k) 1 0 [] m = UB.
Proof. intros L. cbn [array_loop1]. destruct (get_lt m 1) as (a & _ & ->); [lia|]. destruct (get_lt m (1 - 1)) as (p & _ & ->); [lia|]. reflexivity. Qed.
Theorem C67_empty_array : forall before, length before = 624%nat -> mt_initArray before [] = UB.
Proof.
  intros m L. unfold mt_initArray. destruct (init_spec m 19650218 L) as (s & E & Ls & _); [unfold word; lia|]. rewrite E. cbn [bind length]. change (Nat.ltb 0 MT_N) with true.
  pose proof (empty_loop 623 (mt s) Ls) as Q. cbn iota. unfold MT_N. rewrite Q. reflexivity.
Qed.
Print Assumptions C67_empty_array.

(** The generator never dies out: for every seed, among any 624 consecutive outputs, at
    any time, some is not zero. *)
Lemma never_all_zero s x : mti s = 624%nat -> holds x 0 s -> mt_sequence x -> alive x 0 ->
  forall rs zs s', emits mt_next s (rs ++ zs) s' -> length zs = 624%nat -> exists z, In z zs /\ z <> 0.
Proof.
  intros M H S A rs zs s' T Lz. destruct (emits_outputs x S (length rs + 624) 0 s H) as (s2 & T2); [lia|]. rewrite M in T2.
  assert (Q : forall l l' g g1 g2, emits mt_next g l g1 -> emits mt_next g l' g2 -> length l = length l' -> l = l').
  { clear. induction l as [|a l IH]; intros [|b l'] g g1 g2 E1 E2 Ln; try discriminate; [reflexivity|]. inversion E1 as [|? ? h1 ? ? N1 T1]; subst. inversion E2 as [|? ? h2 ? ? N2 T2]; subst. rewrite N1 in N2. injection N2 as -> ->. f_equal. eapply IH; eauto. }
  specialize (Q _ _ _ _ _ T T2). rewrite app_length, map_length, seq_length, Lz in Q. specialize (Q eq_refl). rewrite seq_app, map_app in Q.
  assert (Qz : zs = map (fun i => temper (x (0 + 624 + i)%nat)) (seq (0 + length rs) 624)).
  { apply (f_equal (skipn (length rs))) in Q. rewrite !skipn_app in Q. rewrite (skipn_all2 (n := length rs) rs) in Q by lia. rewrite (skipn_all2 (n := length rs) (map _ (seq 0 (length rs)))) in Q by (rewrite map_length, seq_length; lia).
    rewrite map_length, seq_length, Nat.sub_diag in Q. exact Q. }
  destruct (alive_output x (624 + length rs) S (alive_all x _ S A)) as (j & Hj & N). exists (temper (x (624 + length rs + j)%nat)). split; [|exact N]. rewrite Qz. apply in_map_iff. exists (length rs + j)%nat. split; [do 2 f_equal; lia|]. apply in_seq. lia.
Qed.
Theorem C67_never_all_zero : forall (before : list Z) seed s, length before = 624%nat -> 0 <= seed < 2 ^ 32 -> mt_init before seed = Ok s ->
  forall rs zs s', emits mt_next s (rs ++ zs) s' -> length zs = 624%nat -> exists z, In z zs /\ z <> 0.
Proof.
  intros m seed s L W E. destruct (init_holds m seed L W) as (s0 & x & E0 & M & H & S & _ & A). rewrite E in E0. injection E0 as <-. eapply never_all_zero; eauto.
Qed.
Print Assumptions C67_never_all_zero.
(** Nor for any array. *)
Theorem C67_array_never_all_zero : forall (before seeds : list Z) s, length before = 624%nat -> mt_initArray before seeds = Ok s ->
  forall rs zs s', emits mt_next s (rs ++ zs) s' -> length zs = 624%nat -> exists z, In z zs /\ z <> 0.
Proof.
  intros m seeds s L E. destruct (list_eq_dec Z.eq_dec seeds []) as [->|NE]; [rewrite C67_empty_array in E by exact L; discriminate|].
  destruct (initArray_holds m seeds L NE) as (s0 & x & E0 & M & H & S & A). rewrite E in E0. injection E0 as <-. eapply never_all_zero; eauto.
Qed.
Print Assumptions C67_array_never_all_zero.

(** RandomTempl::init (RandomBase.hpp:24-26) seeds the generator again but keeps the bits
    not yet handed out by randBoolFast: an object seeded again does not repeat what a
    fresh one with that seed gives. *)
Definition reseed (s : fast (G := mts)) (seed : Z) : res (fast (G := mts)) :=
  let! g := mt_init (mt (f_gen s)) seed in Ok (mk_fast g (boolShift s) (boolState s)).
(** The first boolean of a fresh object, and the one after seeding it again alike. *)
Definition before_and_after (seed : Z) : res (bool * bool) :=
  let! g := mt_init (repeat 0 624) seed in
  let! (b1, s) := randBoolFast mt_next (fast_new g) in
  let! s := reseed s seed in
  let! (b2, _) := randBoolFast mt_next s in
  Ok (b1, b2).
Theorem C67_reseed_bools_refuted : before_and_after 4 = Ok (false, true).
Proof. vm_compute. reflexivity. Qed.
Print Assumptions C67_reseed_bools_refuted.

(** The first outputs of the self test of the code (MersenneTwisterRandom.cpp:215-217, 418-420). *)
Fixpoint draws (n : nat) (s : mts) : res (list Z) :=
  match n with O => Ok [] | S n => let! (y, s) := mt_next s in let! l := draws n s in Ok (y :: l) end.
Example C67_run :
  (let! s := mt_initArray (repeat 0 624) [0x123; 0x234; 0x345; 0x456] in draws 6 s) = Ok [1067595299; 955945823; 477289528; 4107218783; 4228976476; 3344332714] /\
  (let! s := mt_init (repeat 0 624) 5489 in draws 6 s) = Ok [3499211612; 581869302; 3890346734; 3586334585; 545404204; 4161255391].
Proof. vm_compute. auto. Qed.
