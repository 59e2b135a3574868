(** C32: merging Stats objects. *)
From Coq Require Import List ZArith QArith Lia Permutation.
From Flocq Require Import Core BinarySingleNaN.
From Verif Require Import Common Double64 Arith Stats_Spec Stats_DSpec Stats_Model Stats_Proofs Stats_DProofs.
Import ListNotations.

(** Exact arithmetic. After every program of adds, merges (including merging an object
    into itself) and resets over any number of objects, each object reports the count,
    sum, sum of squares, minimum and maximum of exactly the samples it stands for, however
    they were partitioned and in whatever order the merges were done. *)
Theorem C32_merge_equals_all_samples : forall (ops : list (op Q)) (i : nat),
  let l := samples ops i in
  let s := st_run exact Fin ops i in
  st_count exact s = (Z.of_nat (length l) mod 2 ^ 64)%Z /\
  fin_eq (st_total exact s) (qsum l) /\
  fin_eq (st_total_sq exact s) (qsumsq l) /\
  is_min (min_value s) l /\
  is_max (max_value s) l.
Proof. intros. apply run_rep. Qed.
Print Assumptions C32_merge_equals_all_samples.

(** ... and the mean and the variance of those samples, the variance being non-negative. *)
Theorem C32_mean_variance : forall (ops : list (op Q)) (i : nat),
  let l := samples ops i in
  let s := st_run exact Fin ops i in
  l <> [] -> (Z.of_nat (length l) < 2 ^ 64)%Z ->
  fin_eq (st_mean exact s) (qmean l) /\ fin_eq (st_variance exact s) (qvar l) /\ (0 <= qvar l)%Q.
Proof.
  intros ops i l s N H. pose proof (run_rep ops i) as R. repeat split.
  - now apply Rep_mean.
  - now apply Rep_variance.
  - apply qvar_nonneg.
Qed.
Print Assumptions C32_mean_variance.

(** Any two ways of combining the same samples agree. *)
Theorem C32_grouping_and_order_irrelevant : forall (p q : list (op Q)) (i j : nat),
  Permutation (samples p i) (samples q j) ->
  let s := st_run exact Fin p i in let t := st_run exact Fin q j in
  st_count exact s = st_count exact t /\
  (exists a b, st_total exact s = Fin a /\ st_total exact t = Fin b /\ (a == b)%Q) /\
  (exists a b, st_total_sq exact s = Fin a /\ st_total_sq exact t = Fin b /\ (a == b)%Q) /\
  (nle (min_value s) (min_value t) = true /\ nle (min_value t) (min_value s) = true) /\
  (nle (max_value s) (max_value t) = true /\ nle (max_value t) (max_value s) = true).
Proof.
  intros p q i j P s t.
  destruct (run_rep p i) as (A1 & (a2 & A2 & A2') & (a3 & A3 & A3') & A4 & A5).
  destruct (run_rep q j) as (B1 & (b2 & B2 & B2') & (b3 & B3 & B3') & B4 & B5).
  unfold st_count, st_total, st_total_sq. subst s t. rewrite A1, B1, A2, B2, A3, B3, (Permutation_length P).
  split; [reflexivity|]. split; [|split; [|split]].
  - exists a2, b2. repeat split. rewrite A2', B2'. now apply qsum_perm.
  - exists a3, b3. repeat split. rewrite A3', B3'. apply qsum_perm. now apply Permutation_map.
  - destruct A4 as [[E ->]|(m & -> & M1 & M2)], B4 as [[F ->]|(n & -> & N1 & N2)].
    + split; reflexivity.
    + rewrite E in P. apply Permutation_nil in P. rewrite P in N1. destruct N1.
    + rewrite F in P. apply Permutation_sym, Permutation_nil in P. rewrite P in M1. destruct M1.
    + cbn [nle exact xle]. split; apply Qle_bool_iff.
      * apply M2. now apply (Permutation_in n (Permutation_sym P)).
      * apply N2. now apply (Permutation_in m P).
  - destruct A5 as [[E ->]|(m & -> & M1 & M2)], B5 as [[F ->]|(n & -> & N1 & N2)].
    + split; reflexivity.
    + rewrite E in P. apply Permutation_nil in P. rewrite P in N1. destruct N1.
    + rewrite F in P. apply Permutation_sym, Permutation_nil in P. rewrite P in M1. destruct M1.
    + cbn [nle exact xle]. split; apply Qle_bool_iff.
      * apply N2. now apply (Permutation_in m P).
      * apply M2. now apply (Permutation_in n (Permutation_sym P)).
Qed.
Print Assumptions C32_grouping_and_order_irrelevant.

(** Double precision: count, minimum and maximum are exact for all finite samples and
    every program. *)
Theorem C32_double_count_min_max : forall (ops : list (op double)) (i : nat),
  let l := samples ops i in
  let s := st_run ieee (fun x : double => x) ops i in
  st_count ieee s = (Z.of_nat (length l) mod 2 ^ 64)%Z /\
  (all_finite l -> dmin_of (min_value s) l /\ dmax_of (max_value s) l).
Proof. intros. apply drun_rep. Qed.
Print Assumptions C32_double_count_min_max.

(** Double precision: sums of integer samples are exact, hence independent of the grouping,
    while the sum of squares is at most 2^53. *)
Theorem C32_double_integer_sums_exact : forall (ops : list (op Z)) (i : nat),
  let l := samples ops i in
  let s := st_run ieee of_Z ops i in
  (zsumsq l <= 2 ^ 53)%Z ->
  is_int (st_total ieee s) (zsum l) /\ is_int (st_total_sq ieee s) (zsumsq l).
Proof. intros ops i. apply irun_rep. Qed.
Print Assumptions C32_double_integer_sums_exact.

(** Without a bound the double sum depends on the grouping: 2^53, 1, 1 added one by one
    gives 2^53, merging {2^53} with {1,1} gives 2^53 + 2. *)
Theorem C32_double_sum_depends_on_grouping_refuted :
  exists (p q : list (op Z)) (i j : nat),
    samples p i = samples q j /\
    Beqb (st_total ieee (st_run ieee of_Z p i)) (st_total ieee (st_run ieee of_Z q j)) = false.
Proof.
  exists [OAdd 0 (2 ^ 53); OAdd 0 1; OAdd 0 1]%Z, [OAdd 0 (2 ^ 53); OAdd 1 1; OAdd 1 1; OMerge 0 1]%Z, 0%nat, 0%nat.
  split; vm_compute; reflexivity.
Qed.
Print Assumptions C32_double_sum_depends_on_grouping_refuted.

(** A program with four objects whose merges form a tree. *)
Example C32_example :
  let ops := [OAdd 0 (1 # 2); OAdd 1 (-3 # 1); OAdd 1 (5 # 2); OMerge 2 1; OAdd 3 (7 # 1); OMerge 2 3; OMerge 0 2; OMerge 0 0]%Q in
  samples ops 0 = [1 # 2; -3 # 1; 5 # 2; 7 # 1; 1 # 2; -3 # 1; 5 # 2; 7 # 1]%Q /\
  st_count exact (st_run exact Fin ops 0%nat) = 8%Z /\
  min_value (st_run exact Fin ops 0%nat) = Fin (-3 # 1) /\
  samples ops 0%nat <> [] /\ (Z.of_nat (length (samples ops 0%nat)) < 2 ^ 64)%Z.
Proof. repeat split; try discriminate; vm_compute; reflexivity. Qed.
Example C32_example_int :
  let ops := [OAdd 0 3; OAdd 1 (-4); OMerge 0 1]%Z in (zsumsq (samples ops 0%nat) <= 2 ^ 53)%Z /\ zsumsq (samples ops 0%nat) = 25%Z.
Proof. split; vm_compute; [discriminate|reflexivity]. Qed.
Example C32_example_order :
  Permutation (samples [OAdd 0 (1 # 2); OAdd 0 (3 # 1)]%Q 0) (samples [OAdd 5 (3 # 1); OAdd 4 (1 # 2); OMerge 4 5; OReset 5]%Q 4).
Proof. vm_compute. apply Permutation_refl. Qed.
