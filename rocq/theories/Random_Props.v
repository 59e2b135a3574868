(** C45 (integers and booleans) and C46 (shuffling), for every generator of 32-bit
    words. *)
From Coq Require Import List Arith ZArith Lia Bool Permutation ZifyBool ZifyNat.
From Verif Require Import Common Random_Spec Random_Model Random_Proofs.
Import ListNotations.
Local Open Scope Z_scope.

(** randInt(max) is the next word modulo max, below max; and max = 0 is undefined. *)
Theorem C45_randInt_range : forall (G : Type) (next : G -> res (Z * G)) g r g' max, next g = Ok (r, g') ->
  (0 < max -> exists v, randIntMax next max g = Ok (v, g') /\ 0 <= v < max /\ exists q, r = q * max + v) /\ randIntMax next 0 g = UB.
Proof.
  intros G next g r g' max E. unfold randIntMax. rewrite E. cbn [bind]. split; [|reflexivity]. intros Hm. replace (max =? 0) with false by lia.
  eexists. split; [reflexivity|]. split; [apply Z.mod_pos_bound; lia|]. exists (r / max). pose proof (Z.div_mod r max ltac:(lia)). lia.
Qed.
Print Assumptions C45_randInt_range.

(** randIntUnbiased returns the result of the first accepted word. *)
Theorem C45_unbiased_first_accepted : forall (G : Type) (next : G -> res (Z * G)) umax max rejected r v g g' fuel, max <> 0 ->
  Forall (fun x => accept umax max x = None) rejected -> accept umax max r = Some v -> emits next g (rejected ++ [r]) g' -> (length rejected < fuel)%nat ->
  randIntUnbiased next umax max fuel g = Ok (v, g').
Proof. intros G next umax max rej r v g g' fuel Hm F A E Hf. exact (unbiased_run next umax max rej r v g g' fuel Hm F A E Hf). Qed.
Print Assumptions C45_unbiased_first_accepted.
(** Each result below max comes from equally many of the 2^32 words, and no other result
    occurs; with the UINT32_MAX of <stdint.h>, for every max. *)
Theorem C45_unbiased : forall max, 0 < max < 2 ^ 32 ->
  (forall v, 0 <= v < max -> numbers (fun r => 0 <= r < 2 ^ 32 /\ accept (2 ^ 32 - 1) max r = Some v) ((2 ^ 32 - 1) / max)) /\
  (forall r v, accept (2 ^ 32 - 1) max r = Some v -> 0 <= v < max).
Proof.
  intros max Hm. split; [intros v Hv; apply accepts_exactly; lia|]. intros r v. unfold accept. intros E.
  assert (V : v = r mod max) by (destruct (_ >? _) in E; [congruence|]; destruct (_ >? _) in E; congruence). subst v. apply Z.mod_pos_bound. lia.
Qed.
Print Assumptions C45_unbiased.
(** Fewer than half of the words (one for max > 2^31) are rejected. *)
Theorem C45_unbiased_accepts : forall max r, 0 < max < 2 ^ 32 -> 0 <= r < 2 ^ 32 -> (accept (2 ^ 32 - 1) max r = None <-> (2 ^ 32 - 1) / max * max <= r) /\ 2 ^ 31 <= (2 ^ 32 - 1) / max * max.
Proof.
  intros max r Hm Hr. rewrite accept_iff by lia. split; [destruct (Z.ltb_spec r ((2 ^ 32 - 1) / max * max)); split; intros; (discriminate || reflexivity || lia)|].
  pose proof (Z.div_mod (2 ^ 32 - 1) max ltac:(lia)) as M. pose proof (Z.mod_pos_bound (2 ^ 32 - 1) max ltac:(lia)) as B.
  assert (1 <= (2 ^ 32 - 1) / max) by (apply Z.div_le_lower_bound; lia). set (q := (2 ^ 32 - 1) / max) in *. nia.
Qed.
Print Assumptions C45_unbiased_accepts.
(** Where <stdint.h> does not define UINT32_MAX the header defines it as 0xFFFFFFF, which
    has one digit too few. Then a result is still as likely as any other for max up to
    that number, but beyond it is not: for max = 2^29, 0 comes from 8 words and 2^29-1
    from 7. *)
Theorem C45_fallback_small : forall max, 0 < max <= 0xFFFFFFF ->
  forall v, 0 <= v < max -> numbers (fun r => 0 <= r < 2 ^ 32 /\ accept 0xFFFFFFF max r = Some v) (0xFFFFFFF / max).
Proof. intros max Hm v Hv. apply accepts_exactly; lia. Qed.
Print Assumptions C45_fallback_small.
Theorem C45_fallback_refuted :
  numbers (fun r => 0 <= r < 2 ^ 32 /\ accept 0xFFFFFFF (2 ^ 29) r = Some 0) 8 /\
  numbers (fun r => 0 <= r < 2 ^ 32 /\ accept 0xFFFFFFF (2 ^ 29) r = Some (2 ^ 29 - 1)) 7.
Proof.
  assert (A : forall r, accept 0xFFFFFFF (2 ^ 29) r = if r <? 0xEFFFFFFF then Some (r mod 2 ^ 29) else if r <? 0 then Some (r mod 2 ^ 29) else None).
  { intros r. unfold accept. replace ((268435455 - 2 ^ 29) mod 2 ^ 32) with 4026531839 by reflexivity. replace (268435455 / 2 ^ 29 * 2 ^ 29) with 0 by reflexivity. rewrite !Z.gtb_ltb. reflexivity. }
  split.
  - exists (residues (2 ^ 29) 0 8). split; [apply residues_nodup; lia|]. split; [|reflexivity]. intros r. rewrite residues_spec by lia. rewrite A. change (Z.of_nat 8 * 2 ^ 29) with (2 ^ 32). pose proof (Z.div_mod r (2 ^ 29) ltac:(lia)) as M. split.
    + intros (H & E). split; [lia|]. assert (r / 2 ^ 29 < 8) by (apply Z.div_lt_upper_bound; lia). replace (r <? 4026531839) with true by lia. now rewrite E.
    + intros (H & E). destruct (Z.ltb_spec r 4026531839); [|destruct (Z.ltb_spec r 0); [lia|discriminate]]. split; [lia|]. congruence.
  - exists (residues (2 ^ 29) (2 ^ 29 - 1) 7). split; [apply residues_nodup; lia|]. split; [|reflexivity]. intros r. rewrite residues_spec by lia. rewrite A. pose proof (Z.div_mod r (2 ^ 29) ltac:(lia)) as M. split.
    + intros (H & E). split; [lia|]. replace (r <? 4026531839) with true by lia. now rewrite E.
    + intros (H & E). destruct (Z.ltb_spec r 4026531839) as [L|L]; [|destruct (Z.ltb_spec r 0); [lia|discriminate]]. assert (E' : r mod 2 ^ 29 = 2 ^ 29 - 1) by congruence. split; [|exact E']. split; [lia|].
      assert (r / 2 ^ 29 < 8) by (apply Z.div_lt_upper_bound; lia). assert (r / 2 ^ 29 <> 7) by (intros Q; rewrite E', Q in M; lia). change (Z.of_nat 7) with 7. lia.
Qed.
Print Assumptions C45_fallback_refuted.

(** randLongLong puts two words side by side, so every 64-bit number comes from exactly
    one pair. *)
Theorem C45_longlong : forall (G : Type) (next : G -> res (Z * G)) g a b g', 0 <= a < 2 ^ 32 -> 0 <= b < 2 ^ 32 -> emits next g [a; b] g' ->
  exists x, randLongLong next g = Ok (x, g') /\ 0 <= x < 2 ^ 64 /\ x / 2 ^ 32 = a /\ x mod 2 ^ 32 = b.
Proof.
  intros G next g a b g' Ha Hb E. exists (a * 2 ^ 32 + b). split; [exact (longlong_ok next a b g g' Ha Hb E)|]. split; [lia|].
  split; [rewrite Z.add_comm, Z.div_add, Z.div_small by lia; lia|]. rewrite Z.add_comm, Z.mod_add by lia. now apply Z.mod_small.
Qed.
Print Assumptions C45_longlong.
(** randBool is the lowest bit of a word; randBoolFast hands out each bit of each pair of
    words once, lowest first. *)
Theorem C45_bool : forall (G : Type) (next : G -> res (Z * G)) g r g', next g = Ok (r, g') -> randBool next g = Ok (Z.odd r, g').
Proof. intros G next g r g' E. unfold randBool. rewrite E. cbn [bind]. now rewrite low_bit. Qed.
Print Assumptions C45_bool.
Theorem C45_bool_fast : forall (G : Type) (next : G -> res (Z * G)) (ws : list (Z * Z)) g g',
  Forall (fun w => 0 <= fst w < 2 ^ 32 /\ 0 <= snd w < 2 ^ 32) ws -> emits next g (flat_map (fun w => [fst w; snd w]) ws) g' ->
  exists s, fast_bools next (64 * length ws) (fast_new g) = Ok (flat_map (fun w => bits64 (fst w * 2 ^ 32 + snd w)) ws, s) /\ f_gen s = g'.
Proof. intros G next ws g g' F E. destruct (fast_words next ws g g' 0 F E) as (y & H). exists (mk_fast g' 0 y). split; [exact H|reflexivity]. Qed.
Print Assumptions C45_bool_fast.

(** C46. A shuffle permutes the range, whatever the generator hands out; it uses one word
    per element after the first. *)
Theorem C46_permutes : forall (G A : Type) (next : G -> res (Z * G)) (l : list A) rs g g',
  Z.of_nat (length l) < 2 ^ 32 -> length rs = pred (length l) -> Forall (fun r => 0 <= r) rs -> emits next g rs g' ->
  exists l', MT_random_shuffle next l g = Ok (l', g') /\ Permutation l l'.
Proof.
  intros G A next l rs g g' Hl L F E. destruct l as [|a l].
  - destruct rs; [|discriminate]. inversion E; subst. exists []. split; [reflexivity|constructor].
  - cbn [length pred] in L. unfold MT_random_shuffle. rewrite <- L. destruct (loop_swaps next rs 1 (a :: l) g g') as (E' & C); [cbn [length]; lia|exact Hl|exact F|exact E|].
    eexists. split; [exact E'|]. apply swaps_perm; [exact C|]. assert (LC : forall rs i, length (choices i rs) = length rs) by (clear; induction rs as [|r rs IH]; intros i; cbn [choices length]; [reflexivity|]; now rewrite IH).
    rewrite LC. cbn [length]. lia.
Qed.
Print Assumptions C46_permutes.
(** The choices of draws: any sequence with the i-th at most i comes from words. *)
Lemma choices_of cs : forall i, choices_ok cs i -> Z.of_nat (i + length cs) < 2 ^ 32 -> choices i (map Z.of_nat cs) = cs /\ Forall (fun r => 0 <= r < 2 ^ 32) (map Z.of_nat cs).
Proof.
  induction cs as [|c cs IH]; intros i C H; cbn [map choices choices_ok length] in *; [auto|]. destruct C as (C1 & C2). destruct (IH (S i) C2) as (A & B); [lia|]. rewrite A, Z.mod_small by lia. rewrite Nat2Z.id. split; [reflexivity|]. constructor; [lia|exact B].
Qed.
Lemma emits_list rs : forall rest, emits next_of (rs ++ rest) rs rest.
Proof. induction rs as [|r rs IH]; intros rest; [constructor|]. econstructor; [reflexivity|]. apply IH. Qed.
(** Every permutation is reached by some words. *)
Theorem C46_reaches_every_permutation : forall (A : Type) (l l' : list A), Permutation l l' -> Z.of_nat (length l) < 2 ^ 32 ->
  exists rs, length rs = pred (length l) /\ Forall (fun r => 0 <= r < 2 ^ 32) rs /\ MT_random_shuffle next_of l rs = Ok (l', []).
Proof.
  intros A l l' P Hl. destruct l as [|a l]; [apply Permutation_nil in P; subst; exists []; auto|].
  destruct (swaps_onto (a :: l) l' P) as (cs & L & C & S); [discriminate|]. cbn [length pred] in L. destruct (choices_of cs 1 C) as (E & F); [cbn [length] in Hl; lia|].
  exists (map Z.of_nat cs). rewrite map_length. split; [exact L|]. split; [exact F|]. unfold MT_random_shuffle. rewrite <- L. pose proof (emits_list (map Z.of_nat cs) []) as Em. rewrite app_nil_r in Em.
  destruct (loop_swaps next_of (map Z.of_nat cs) 1 (a :: l) (map Z.of_nat cs) []) as (E' & _); [rewrite map_length; cbn [length]; lia|exact Hl|eapply Forall_impl; [|exact F]; cbn; lia|exact Em|].
  rewrite map_length in E'. rewrite E', E, S. reflexivity.
Qed.
Print Assumptions C46_reaches_every_permutation.
(** No permutation is favoured: on different elements, runs that end alike took the same
    choice at every position, so each permutation belongs to exactly one of the equally
    many sequences of choices (i+1 of them at position i). *)
Theorem C46_one_way : forall (A : Type) (l : list A) rs rs' l1 g1 g2, NoDup l -> Z.of_nat (length l) < 2 ^ 32 -> length rs = pred (length l) -> length rs' = pred (length l) ->
  Forall (fun r => 0 <= r) rs -> Forall (fun r => 0 <= r) rs' -> MT_random_shuffle next_of l rs = Ok (l1, g1) -> MT_random_shuffle next_of l rs' = Ok (l1, g2) ->
  choices 1 rs = choices 1 rs'.
Proof.
  intros A l rs rs' l1 g1 g2 ND Hl L L' F F' E E'. destruct l as [|a l]; [destruct rs; [|discriminate]; destruct rs'; [reflexivity|discriminate]|].
  assert (LC : forall rs i, length (choices i rs) = length rs) by (clear; induction rs as [|r rs IH]; intros i; cbn [choices length]; [reflexivity|]; now rewrite IH).
  cbn [length pred] in L, L'. unfold MT_random_shuffle in E, E'. pose proof (emits_list rs []) as M. pose proof (emits_list rs' []) as M'. rewrite app_nil_r in M, M'.
  destruct (loop_swaps next_of rs 1 (a :: l) rs []) as (S1 & C1); [cbn [length]; lia|exact Hl|exact F|exact M|].
  destruct (loop_swaps next_of rs' 1 (a :: l) rs' []) as (S2 & C2); [cbn [length]; lia|exact Hl|exact F'|exact M'|].
  rewrite L in S1. rewrite L' in S2. rewrite E in S1. rewrite E' in S2. apply (swaps_inj (a :: l) ND); [rewrite LC; exact L|rewrite LC; exact L'|exact C1|exact C2|]. congruence.
Qed.
Print Assumptions C46_one_way.

Example C46_run : MT_random_shuffle next_of [10; 20; 30; 40]%nat [5; 7; 2; 99] = Ok ([10; 30; 40; 20]%nat, [99]).
Proof. vm_compute. reflexivity. Qed.
Example C45_run : randIntUnbiased next_of (2 ^ 32 - 1) 3000000000 4 [4294967295; 3500000000; 3000000001; 7] = Ok (7, []) /\
  randIntUnbiased next_of (2 ^ 32 - 1) 3000000000 4 [4294967295; 3500000000; 2999999999; 7] = Ok (2999999999, [7]) /\
  randIntMax next_of 10 [4294967295; 3] = Ok (5, [3]) /\
  fast_bools next_of 3 (fast_new [1; 6; 0; 0]) = Ok ([false; true; true], mk_fast [0; 0] 61 (2 ^ 29)).
Proof. vm_compute. auto. Qed.
