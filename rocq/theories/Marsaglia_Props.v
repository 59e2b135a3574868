(** C68: the Marsaglia generators. *)
From Coq Require Import List Arith ZArith Lia Bool ZifyBool ZifyNat.
From Verif Require Import Common CommonFacts Random_Model Random_Spec MT_Proofs Marsaglia_Model Marsaglia_Spec Marsaglia_Proofs.
Import ListNotations.
Local Open Scope Z_scope.

(** The words MarsagliaRNGMicro hands out are those of a xor-shift generator with two words
    of state, the x and w the object starts with. *)
Theorem C68_micro : forall s, exists u, u 0%nat = x_ s /\ u 1%nat = w_ s /\ xorshift 2 u /\
  forall n, exists s', emits micro_randInt s (map (fun i => u (2 + i)%nat) (seq 0 n)) s'.
Proof.
  intros s. exists (useq (front s)). split; [reflexivity|]. split; [reflexivity|]. split; [apply useq_xorshift|]. intros n. apply micro_emits.
Qed.
Print Assumptions C68_micro.

(** They are not those of Marsaglia's generator, which has four. *)
Theorem C68_micro_four_words_refuted : exists seed, ~ exists u,
  u 0%nat = x_ (micro_init seed) /\ u 1%nat = y_ (micro_init seed) /\ u 2%nat = z_ (micro_init seed) /\ u 3%nat = w_ (micro_init seed) /\ xorshift 4 u /\
  forall n, exists s', emits micro_randInt (micro_init seed) (map (fun i => u (4 + i)%nat) (seq 0 n)) s'.
Proof.
  exists 1. intros (u & E0 & E1 & E2 & E3 & X & H). destruct (H 2%nat) as [s' T]. cbn [seq map] in T.
  pose proof (X 0%nat) as X0. pose proof (X 1%nat) as X1. cbn [Nat.add Nat.sub] in X0, X1, T. rewrite E0, E3 in X0. rewrite E1, X0 in X1. rewrite X1, X0 in T. clear - T.
  pose proof (micro_nth _ _ _ 1 T ltac:(cbn [length]; lia)) as E. cbn [nth_error Nat.add] in E.
  match type of E with Some ?a = Some ?b => assert (D : a <> b) by (vm_compute; discriminate); congruence end.
Qed.
Print Assumptions C68_micro_four_words_refuted.

(** The sequence repeats from its very start, after at most 2^64 words. *)
Theorem C68_micro_period : forall s, word (x_ s) -> word (w_ s) ->
  exists p, (0 < p)%nat /\ Z.of_nat p <= 2 ^ 64 /\
    forall rs s', emits micro_randInt s rs s' -> forall i, (p + i < length rs)%nat -> nth_error rs (p + i) = nth_error rs i.
Proof.
  intros s Wx Ww. destruct (pstep_period (front s) (conj Wx Ww)) as (p & Hp & Hle & E). exists p. split; [exact Hp|]. split; [exact Hle|]. intros rs s' H i L.
  rewrite (micro_nth _ _ _ _ H L), (micro_nth _ _ _ i H) by lia. f_equal. unfold useq. replace (2 + (p + i))%nat with (2 + i + p)%nat by lia. now rewrite iter_add, E.
Qed.
Print Assumptions C68_micro_period.

(** Unless x and w are both zero, two words in succession never are. *)
Theorem C68_micro_alive : forall s, word (x_ s) -> word (w_ s) -> (x_ s <> 0 \/ w_ s <> 0) ->
  forall rs s', emits micro_randInt s rs s' -> forall i, nth_error rs i = Some 0 -> nth_error rs (S i) <> Some 0.
Proof.
  intros s Wx Ww N rs s' H i E1 E2. assert (L : (S i < length rs)%nat) by (apply nth_error_Some; congruence).
  rewrite (micro_nth _ _ _ _ H L) in E2. rewrite (micro_nth _ _ _ i H) in E1 by lia. injection E1 as E1. injection E2 as E2.
  apply (pstep_alive (2 + i) (front s) (conj Wx Ww)); [unfold front; intros E; assert (x_ s = 0 /\ w_ s = 0) by (split; congruence); lia|].
  apply injective_projections; [exact E1|exact E2].
Qed.
Print Assumptions C68_micro_alive.
Example C68_micro_alive_nonvacuous : word (x_ (micro_init 7)) /\ word (w_ (micro_init 7)) /\ x_ (micro_init 7) <> 0 /\
  exists a b c s', emits micro_randInt (micro_init 7) [a; b; c] s' /\ a <> b /\ b <> c.
Proof.
  split; [apply mix_word|]. split; [apply mix_word|]. split; [vm_compute; discriminate|]. eexists _, _, _, _.
  split; [econstructor; [vm_compute; reflexivity|econstructor; [vm_compute; reflexivity|econstructor; [vm_compute; reflexivity|constructor]]]|]. split; discriminate.
Qed.

(** The state of a lagged generator with 2^k words and the multiplier A, whose index is set. *)
Definition lagged (k : nat) (A : Z) (s : cmwc) (i : Z) : Prop :=
  (k <= 32)%nat /\ 0 < A < 2 ^ 31 /\ length (xs s) = (2 ^ k)%nat /\ Forall word (xs s) /\ 0 <= c_ s <= A /\ i_ s = Some i /\ word i.
(** The words that it will use, oldest first. *)
Definition pending (k : nat) (s : cmwc) (i : Z) : list Z := from_position (xs s) (Z.to_nat ((i + 1) mod 2 ^ Z.of_nat k)).
Lemma lagged_well k A s i : lagged k A s i -> cwell k A s (Z.to_nat ((i + 1) mod 2 ^ Z.of_nat k)).
Proof.
  intros (Hk & HA & L & W & C & Ei & Wi). split; try assumption. exists i. split; [exact Ei|]. split; [exact Wi|]. rewrite Z2Nat.id; [reflexivity|]. apply Z.mod_pos_bound, Z.pow_pos_nonneg; lia.
Qed.
Lemma well_lagged k A s p : (k <= 32)%nat -> 0 < A < 2 ^ 31 -> cwell k A s p -> exists i, lagged k A s i.
Proof. intros Hk HA [L W C (i & Ei & Wi & Ep)]. exists i. unfold lagged. auto 10. Qed.

(** The lagged generators follow Marsaglia's recurrence as long as no product is a positive
    multiple of 2^32 - 1. *)
Theorem C68_lagged_partial : forall k A s i n, lagged k A s i -> mwc_no_multiple A n (pending k s i, c_ s) ->
  exists s', emits (cmwc_randInt (2 ^ k) A) s (mwc_words A n (pending k s i, c_ s)) s'.
Proof.
  intros k A s i n H N. pose proof (lagged_well _ _ _ _ H) as W. destruct H as (Hk & HA & _). destruct (cmwc_run k A n Hk HA s _ W N) as (s' & p' & E & _). exists s'. exact E.
Qed.
Print Assumptions C68_lagged_partial.

(** In every case: the words handed out are 32-bit words, no access is out of the array, and
    the carry never exceeds A. *)
Theorem C68_lagged_safe : forall k A s i n, lagged k A s i ->
  exists rs s' i', emits (cmwc_randInt (2 ^ k) A) s rs s' /\ length rs = n /\ Forall word rs /\ lagged k A s' i'.
Proof.
  intros k A s i n H. pose proof (lagged_well _ _ _ _ H) as W. destruct H as (Hk & HA & _). destruct (cmwc_safe k A n Hk HA s _ W) as (rs & s' & p' & E & L & F & W').
  destruct (well_lagged _ _ _ _ Hk HA W') as [i' H']. exists rs, s', i'. auto.
Qed.
Print Assumptions C68_lagged_safe.

(** What happens at a positive multiple: the word is 2^32 - 1 where the recurrence gives
    2^32 - 2, and the carry is one less. *)
Theorem C68_multiple : forall k A s i, lagged k A s i -> let t := A * hd 0 (pending k s i) + c_ s in
  0 < t -> t mod mwc_base = 0 ->
  exists s', cmwc_randInt (2 ^ k) A s = Ok (2 ^ 32 - 1, s') /\ c_ s' = t / mwc_base - 1.
Proof.
  intros k A s i H t Ht M. pose proof (lagged_well _ _ _ _ H) as W. destruct H as (Hk & HA & _). destruct (cmwc_step k A s _ Hk HA W) as (v & s' & E & _ & _ & Ev & Ec & _).
  fold (pending k s i) in Ev, Ec. fold t in Ev, Ec. unfold quirk in Ev, Ec. replace ((t =? 0) || negb (t mod mwc_base =? 0)) with false in Ev, Ec by lia. cbn [fst snd] in Ev, Ec.
  exists s'. rewrite E. split; [|exact Ec]. f_equal. f_equal. rewrite Ev. reflexivity.
Qed.
Print Assumptions C68_multiple.

(** So the recurrence does not always hold, *)
Theorem C68_recurrence_refuted : exists s i, lagged 3 716514398 s i /\ c_ s < 716514398 /\
  ~ exists s', emits (cmwc_randInt 8 716514398) s (mwc_words 716514398 1 (pending 3 s i, c_ s)) s'.
Proof.
  exists (mk_cmwc [5; 1; 2; 3; 4; 5; 6; 7] 712395305 (Some 7)), 7. split; [|split; [cbn; lia|]].
  - unfold lagged. cbn [xs c_ i_ length]. split; [lia|]. split; [lia|]. split; [reflexivity|]. split; [|split; [lia|split; [reflexivity|unfold word; lia]]]. repeat constructor; unfold word; lia.
  - intros [s' E]. inversion E as [|? ? g1 ? ? N1 T1]; subst. vm_compute in N1. discriminate.
Qed.
Print Assumptions C68_recurrence_refuted.
(** nor does the carry stay below A, as the comment on it demands. *)
Theorem C68_carry_refuted : exists s i v s', lagged 3 716514398 s i /\ c_ s < 716514398 /\ cmwc_randInt 8 716514398 s = Ok (v, s') /\ c_ s' = 716514398.
Proof.
  exists (mk_cmwc [2 ^ 32 - 1; 1; 2; 3; 4; 5; 6; 7] 716514397 (Some 7)), 7. eexists _, _. split; [|split; [cbn; lia|]].
  - unfold lagged. cbn [xs c_ i_ length]. split; [lia|]. split; [lia|]. split; [reflexivity|]. split; [|split; [lia|split; [reflexivity|unfold word; lia]]]. repeat constructor; unfold word; lia.
  - split; [vm_compute; reflexivity|]. reflexivity.
Qed.
Print Assumptions C68_carry_refuted.

(** Seeding: the array holds the first words of MarsagliaRNGMicro for the same seed, and the
    carry is below A. *)
Theorem C68_seeding : forall k A fuel seed s, 0 < A < 2 ^ 31 -> cmwc_init (2 ^ k) A fuel seed = Ok s ->
  length (xs s) = (2 ^ k)%nat /\ Forall word (xs s) /\ 0 <= c_ s < A /\ exists r, emits micro_randInt (micro_init seed) (xs s) r.
Proof.
  intros k A fuel seed s HA E. unfold cmwc_init in E. destruct (take_words (2 ^ k) (micro_init seed)) as [[l r]| | |] eqn:E1; cbn [bind] in E; try discriminate.
  destruct (randIntUnbiased _ _ _ _ _) as [[c r2]| | |] eqn:E2 in E; cbn [bind] in E; try discriminate. injection E as <-. cbn [xs c_]. destruct (take_words_emits _ _ _ _ E1) as [H L].
  split; [exact L|]. split; [eapply micro_words; [| |exact H]; apply mix_word|]. rewrite Z.mod_small in E2 by lia. split; [eapply unbiased_range; [|exact E2]; lia|]. exists r. exact H.
Qed.
Print Assumptions C68_seeding.
(** But it does not set the index: the first randInt() reads an indeterminate value. *)
Theorem C68_reproducible_refuted : forall SIZE A fuel seed s, cmwc_init SIZE A fuel seed = Ok s -> cmwc_randInt SIZE A s = UB.
Proof.
  intros SIZE A fuel seed s E. unfold cmwc_init in E. destruct (take_words _ _) as [[l r]| | |] eqn:E1 in E; cbn [bind] in E; try discriminate.
  destruct (randIntUnbiased _ _ _ _ _) as [[c r2]| | |] eqn:E2 in E; cbn [bind] in E; try discriminate. injection E as <-. reflexivity.
Qed.
Print Assumptions C68_reproducible_refuted.

(** A seeded generator whose index happens to be 0: it meets the hypotheses, and hands out
    the words of the recurrence. *)
Example C68_run : exists s, cmwc_init 8 716514398 3 42 = Ok s /\ let s0 := mk_cmwc (xs s) (c_ s) (Some 0) in
  lagged 3 716514398 s0 0 /\ mwc_no_multiple 716514398 12 (pending 3 s0 0, c_ s0) /\
  NoDup (mwc_words 716514398 12 (pending 3 s0 0, c_ s0)).
Proof.
  destruct (cmwc_init 8 716514398 3 42) as [s| | |] eqn:E; [|exfalso; vm_compute in E; discriminate..]. exists s. split; [reflexivity|]. cbv zeta.
  destruct (C68_seeding 3 716514398 3 42 s ltac:(lia) E) as (L & W & C & _).
  split; [unfold lagged; cbn [xs c_ i_]; split; [lia|]; split; [lia|]; split; [exact L|]; split; [exact W|]; split; [lia|]; split; [reflexivity|unfold word; lia]|].
  clear L W C. vm_compute in E. injection E as <-. cbn [xs c_]. split.
  - repeat (split; [right; vm_compute; discriminate|]). exact I.
  - vm_compute. repeat (constructor; [cbn [In]; intuition discriminate|]). constructor.
Qed.
