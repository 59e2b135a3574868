(** C93: getQuantile computed in IEEE doubles, as the code does it. *)
From Coq Require Import List Arith ZArith QArith Qround Reals NArith Lia Lra Bool Permutation Sorted ZifyBool ZifyNat ZifyN.
From Flocq Require Import Core BinarySingleNaN.
From Verif Require Import Common CommonFacts ListFacts Double64 Arith Double_Proofs Quantile_Model Quantile_Spec Quantile_Facts Quantile_Merge Quantile_Bin Quantile_Collapse Quantile_Proofs Quantile_Query Quantile_Error Quantile_History Quantile_Eps Quantile_Props QD_Proofs.
Import ListNotations.
Local Open Scope Z_scope.

(** (double)k / (double)n *)
Definition quotient (k n : Z) : double := ddiv (of_Z k) (of_Z n).
(** the double lies in [0, 1] (neither NaN nor an infinity) *)
Definition in_unit (q : double) : Prop := is_finite q = true /\ (0 <= B2R q <= 1)%R.

Lemma query_history h s q allow : legal h -> small h -> samples h <> [] -> eval h = Ok s -> in_unit q ->
  allow = true \/ Z.of_nat (length (samples h)) <= hbound h ->
  exists v s', getQuantile (A := ieee) s q allow = Ok (Some v, s') /\ Permutation (weighted (retained s')) (weighted (retained s))
    /\ element_at (weighted (retained s)) (drank (Z.of_nat (length (samples h))) q - 1) v.
Proof.
  intros Lg Sm Nh Es [Fq Hq] Ha. destruct (eval_basic h Lg Sm) as (s1 & F & P & E & Ee & I & C & _ & _ & Nb). rewrite Es in Ee. injection Ee as <-.
  assert (Sc : Z.of_nat (length (samples h)) < 10 ^ 14) by (destruct h; cbn [small] in Sm; apply Sm).
  assert (LX : (1 <= length (samples h))%nat) by (destruct (samples h); [congruence|simpl; lia]).
  destruct (query_ieee s F P (samples h) E q allow I C ltac:(lia) Nh Fq Hq) as (v & s' & E1 & I' & (S1 & S2 & S3 & S4 & S5) & R & R' & V). { rewrite C, Nb. exact Ha. }
  exists v, s'. split; [exact E1|]. rewrite (weighted_retained s F P R), (weighted_retained s' F (isort P) R'), S1. rewrite C in V. split.
  - rewrite !blist_mass. apply Permutation_app_head, isort_perm.
  - apply element_isort; [|exact V]. destruct (drank_range (Z.of_nat (length (samples h))) ltac:(lia) q Fq Hq) as [D _]. clear - D. lia.
Qed.

(** For every history of an object and every k from 1 to the number n of its
    samples, getQuantile((double)k / n), computed in doubles, returns the k-th
    smallest of the n values the object stands for (the retained values, each
    repeated by its weight), whatever the rounding of the division did. *)
Theorem C93_kth : forall h s k allow, legal h -> small h -> eval h = Ok s ->
  1 <= k <= Z.of_nat (length (samples h)) -> allow = true \/ Z.of_nat (length (samples h)) <= hbound h ->
  exists v s', getQuantile (A := ieee) s (quotient k (Z.of_nat (length (samples h)))) allow = Ok (Some v, s')
    /\ Permutation (weighted (retained s')) (weighted (retained s))
    /\ element_at (weighted (retained s)) (k - 1) v.
Proof.
  intros h s k allow Lg Sm Es Hk Ha. assert (Sc : Z.of_nat (length (samples h)) < 10 ^ 14) by (destruct h; cbn [small] in Sm; apply Sm).
  assert (Hn : 1 <= Z.of_nat (length (samples h)) < 10 ^ 14) by lia.
  destruct (quot_spec k _ Hn Hk) as (Fq & Hq & _). assert (Nh : samples h <> []) by (intros K; rewrite K in Hk; cbn in Hk; lia).
  destruct (query_history h s (quotient k (Z.of_nat (length (samples h)))) allow Lg Sm Nh Es (conj Fq Hq) Ha) as (v & s' & E & Pm & V).
  unfold quotient in V. rewrite (drank_quot k _ Hn Hk) in V. exists v, s'. auto.
Qed.
Print Assumptions C93_kth.
Example C93_kth_ex : exists s s', eval ex_hist = Ok s /\ (1 <= 40 <= Z.of_nat (length (samples ex_hist))) /\
  getQuantile (A := ieee) s (quotient 40 (Z.of_nat (length (samples ex_hist)))) true = Ok s'.
Proof. eexists _, _. split; [vm_compute; reflexivity|]. split; [vm_compute; intuition discriminate|]. vm_compute. reflexivity. Qed.

(** Any double q in [0,1] gets an answer: the value of rank ceil(n*q) (the exact
    product), or the one before it. *)
Theorem C93_any : forall h s q allow, legal h -> small h -> samples h <> [] -> eval h = Ok s -> in_unit q ->
  allow = true \/ Z.of_nat (length (samples h)) <= hbound h ->
  exists v s' r, getQuantile (A := ieee) s q allow = Ok (Some v, s')
    /\ Permutation (weighted (retained s')) (weighted (retained s))
    /\ element_at (weighted (retained s)) (r - 1) v
    /\ Zceil (IZR (Z.of_nat (length (samples h))) * B2R q) - 1 <= r <= Z.max 1 (Zceil (IZR (Z.of_nat (length (samples h))) * B2R q)).
Proof.
  intros h s q allow Lg Sm Nh Es Hq Ha. destruct (query_history h s q allow Lg Sm Nh Es Hq Ha) as (v & s' & E & Pm & V).
  assert (Sc : Z.of_nat (length (samples h)) < 10 ^ 14) by (destruct h; cbn [small] in Sm; apply Sm).
  assert (LX : (1 <= length (samples h))%nat) by (destruct (samples h); [congruence|simpl; lia]).
  destruct (drank_range (Z.of_nat (length (samples h))) ltac:(lia) q (proj1 Hq) (proj2 Hq)) as [_ D].
  exists v, s', (drank (Z.of_nat (length (samples h))) q). auto.
Qed.
Print Assumptions C93_any.
Example C93_any_ex : in_unit (quotient 1 3) /\ in_unit (of_Z 0) /\ in_unit (of_Z 1).
Proof.
  split; [|split].
  - destruct (quot_spec 1 3 ltac:(lia) ltac:(lia)) as (F & H & _). split; auto.
  - destruct of_Z_0 as [E F]. split; [exact F|]. rewrite E. lra.
  - destruct (of_Z_spec 1 ltac:(lia)) as [E F]. rewrite rnd_Z in E by lia. split; [exact F|]. rewrite E. lra.
Qed.

(** Every other double, NaN included, is refused; an object without samples answers NaN. *)
Theorem C93_refused : forall h s q allow, legal h -> small h -> eval h = Ok s ->
  (samples h <> [] -> ~ in_unit q -> getQuantile (A := ieee) s q allow = Abort) /\
  (samples h <> [] -> allow = false -> hbound h < Z.of_nat (length (samples h)) -> getQuantile (A := ieee) s q allow = Abort) /\
  (samples h = [] -> getQuantile (A := ieee) s q allow = Ok (None, s)).
Proof.
  intros h s q allow Lg Sm Es. destruct (eval_basic h Lg Sm) as (s1 & F & P & E & Ee & I & C & _ & _ & Nb). rewrite Es in Ee. injection Ee as <-.
  unfold getQuantile. rewrite C, Nb. split; [|split].
  - intros Nh Q. replace (Z.of_nat (length (samples h)) =? 0) with false by (destruct (samples h); [congruence|simpl; lia]).
    cbn [nle of_int ieee]. rewrite (unit_checks_fail q Q).
    destruct ((Z.of_nat (length (samples h)) <=? hbound h) || allow); reflexivity.
  - intros Nh -> B. replace (Z.of_nat (length (samples h)) =? 0) with false by (destruct (samples h); [congruence|simpl; lia]).
    replace (Z.of_nat (length (samples h)) <=? hbound h) with false by lia. reflexivity.
  - intros ->. reflexivity.
Qed.
Print Assumptions C93_refused.
Example C93_refused_ex : ~ in_unit (B754_nan : double) /\ ~ in_unit (quotient 3 2) /\ samples ex_hist <> [].
Proof.
  split; [intros [H _]; discriminate H|]. split; [|vm_compute; discriminate].
  intros H. destruct H as [F H]. pose proof (unit_checks _ F H) as [_ K]. vm_compute in K. discriminate K.
Qed.

(** While the samples fit into the buffers the answer to (double)k/n is the k-th
    smallest sample. *)
Theorem C93_exact : forall nbound lazy nb bs l k allow,
  (2 <= nb)%nat -> (10 <= bs)%nat -> (nb <= bs)%nat -> Z.of_nat bs < 2 ^ 31 ->
  (length l <= nb * bs)%nat -> Z.of_nat (length l) < 10 ^ 14 -> 1 <= k <= Z.of_nat (length l) -> allow = true \/ Z.of_nat (length l) <= nbound ->
  exists s0 s v s', q_init nbound lazy nb bs = Ok s0 /\ add_all s0 l = Ok s
    /\ getQuantile (A := ieee) s (quotient k (Z.of_nat (length l))) allow = Ok (Some v, s')
    /\ element_at l (k - 1) v.
Proof.
  intros nbound lazy nb bs l k allow H1 H2 H3 H4 Fit Sm Hk Ha. destruct (qinit_spec nbound lazy nb bs H1 H2 H3 H4) as (s0 & E0 & R0 & En & Eb & Eq & Ec & Ev).
  assert (Nl : l <> []) by (intros ->; cbn in Hk; lia).
  assert (I0 : Inv s0 [] [] [] 0). { split; rewrite ?Ev; [exact R0|unfold fcount; cbn; lia|intros x []|cbn; lia|intros; cbn; lia]. }
  destruct (add_all_spec l s0 [] [] [] 0 I0 Ec ltac:(simpl; lia)) as (s & F & P & Es & I & C & Q & B & K & _). cbn [app] in *.
  assert (Hn : 1 <= Z.of_nat (length l) < 10 ^ 14) by lia. destruct (quot_spec k _ Hn Hk) as (Fq & Hq & _).
  destruct (query_ieee s F P l 0 (quotient k (Z.of_nat (length l))) allow I C ltac:(lia) Nl Fq Hq) as (v & s' & E1 & _ & _ & _ & _ & R2). { rewrite C, Q, Eq. exact Ha. }
  exists s0, s, v, s'. split; auto. split; auto. split; auto. rewrite C in R2. unfold quotient in R2. rewrite (drank_quot k _ Hn Hk) in R2.
  destruct (position s F P l 0 v _ I R2) as (p & Hp & Ep). pose proof (fits_exact s F P l 0 I ltac:(rewrite B, K, En, Eb; exact Fit)) as Z0. rewrite Z0 in Ep.
  pose proof (in_delta _ _ _ _ _ I) as Dd. rewrite Z0 in Dd. assert (p = k - 1) by (clear - Ep Dd Hk; lia). now subst p.
Qed.
Print Assumptions C93_exact.
Example C93_exact_ex : exists s0 s s', q_init 1000 true 2 10 = Ok s0 /\ add_all s0 [5;1;4;1;3] = Ok s /\ getQuantile (A := ieee) s (quotient 4 5) false = Ok (Some 4, s').
Proof. eexists _, _, _. split; [vm_compute; reflexivity|]. split; [vm_compute; reflexivity|]. vm_compute. reflexivity. Qed.

(** The constructor's promise, for the answer computed in doubles: the sample
    returned for q has a rank within eps times the number of samples of a rank r
    that is ceil(n*q) or the one before it (k itself when q is (double)k/n). *)
Theorem C93_eps : forall eps n lazy s0 h q,
  (0 <= eps)%Q -> q_new eps n lazy = Ok s0 ->
  (nbuffers s0 <= buffer_size s0)%nat ->
  (2 * eps * inject_Z (Z.max 100 n) < inject_Z (error_weight (Z.of_nat (nbuffers s0)) 39))%Q ->
  uniform (Z.max 100 n) (nbuffers s0) (buffer_size s0) h -> within (Z.max 100 n) h -> legal h -> small h -> samples h <> [] -> in_unit q ->
  exists s v s' p r, eval h = Ok s /\ getQuantile (A := ieee) s q false = Ok (Some v, s')
    /\ element_at (samples h) (p - 1) v
    /\ Zceil (IZR (Z.of_nat (length (samples h))) * B2R q) - 1 <= r <= Z.max 1 (Zceil (IZR (Z.of_nat (length (samples h))) * B2R q))
    /\ (forall k, 1 <= k <= Z.of_nat (length (samples h)) -> q = quotient k (Z.of_nat (length (samples h))) -> r = k)
    /\ (inject_Z (Z.abs (p - r)) <= eps * inject_Z (Z.of_nat (length (samples h) + carried h)))%Q.
Proof.
  intros eps n lazy s0 h q He En Hb Lim Un Wi Lg Sm Nh [Fq Hq]. destruct (new_sized eps n lazy s0 En) as (nb & bs & Ei & Hn & Hs & Hs2 & Sz).
  assert (Sh : nbuffers s0 = nb /\ buffer_size s0 = bs). { unfold q_init in Ei. destruct (1 <? nb)%nat, (10 <=? bs)%nat; cbn [invariant bind] in Ei; try discriminate. injection Ei as <-. unfold init_buffers. fields. destruct lazy; auto. }
  destruct Sh as [Ea Eb]. rewrite Ea, Eb in *. specialize (Sz Lim).
  destruct (eps_inv eps (Z.max 100 n) nb bs h He Sz Lg Sm Un Wi) as (s & F & P & E & Ee & I & C & Nb & B).
  assert (Sc : Z.of_nat (length (samples h)) < 10 ^ 14) by (destruct h; cbn [small] in Sm; apply Sm).
  assert (LX : (1 <= length (samples h))%nat) by (destruct (samples h); [congruence|simpl; lia]).
  destruct (query_ieee s F P (samples h) E q false I C ltac:(lia) Nh Fq Hq) as (v & s' & E1 & _ & _ & _ & _ & R2). { right. rewrite C, Nb. now apply within_len. }
  rewrite C in R2. destruct (position s F P (samples h) E v _ I R2) as (p & Hp & Ep).
  assert (HN : 1 <= Z.of_nat (length (samples h)) < 10 ^ 14) by lia. destruct (drank_range _ HN q Fq Hq) as [D1 D2].
  exists s, v, s', (p + 1), (drank (Z.of_nat (length (samples h))) q). split; auto. split; auto. split; [now replace (p + 1 - 1) with p by lia|]. split; auto. split.
  { intros k Hk ->. unfold quotient. now apply drank_quot. }
  set (r := drank _ _) in *.
  replace (p + 1 - r) with (p - Z.of_nat (Z.to_nat (r - 1))) by (clear - D1; lia).
  set (d := Z.abs (p - _)) in *. assert (Ed : (inject_Z (2 * d) <= 2 * eps * inject_Z (Z.of_nat (length (samples h) + carried h)))%Q) by (eapply Qle_trans; [|exact B]; rewrite <- Zle_Qle; exact Ep).
  rewrite inject_Z_mult in Ed. change (inject_Z 2) with 2%Q in Ed. clear - Ed. Lqa.lra.
Qed.
Print Assumptions C93_eps.
(** The default constructor meets the hypotheses, with 61 samples. *)
Example C93_eps_ex : exists s0, q_new (1 # 100) (10 ^ 9) true = Ok s0 /\ (nbuffers s0 <= buffer_size s0)%nat /\
  (2 * (1 # 100) * inject_Z (Z.max 100 (10 ^ 9)) < inject_Z (error_weight (Z.of_nat (nbuffers s0)) 39))%Q /\
  let h := fill (HNew (10 ^ 9) true (nbuffers s0) (buffer_size s0)) (map Z.of_nat (seq 0 61)) in
  uniform (Z.max 100 (10 ^ 9)) (nbuffers s0) (buffer_size s0) h /\ samples h <> [].
Proof.
  assert (En : q_new (1 # 100) (10 ^ 9) true = q_init (10 ^ 9) true 10 (Z.to_nat 765)).
  { unfold q_new. assert (Fb : find_bk 28 2 (1 # 100) (10 ^ 9) None = Some (10, 765)) by (vm_compute; reflexivity).
    replace (if 10 ^ 9 <? 100 then 100 else 10 ^ 9) with (10 ^ 9) by reflexivity. rewrite Fb. reflexivity. }
  destruct (qinit_spec (10 ^ 9) true 10 (Z.to_nat 765)) as (s0 & E0 & _ & En0 & Eb & _); [lia|lia|lia|lia|]. exists s0. rewrite En. split; [exact E0|]. rewrite En0, Eb.
  split; [lia|]. split; [vm_compute; reflexivity|]. cbv zeta. split; [|rewrite samples_fill; discriminate].
  unfold fill. generalize (map Z.of_nat (seq 0 61)). intros l.
  assert (G : forall l h, uniform (Z.max 100 (10 ^ 9)) 10 (Z.to_nat 765) h -> uniform (Z.max 100 (10 ^ 9)) 10 (Z.to_nat 765) (fold_left HAdd l h)) by (clear; induction l as [|v l IH]; intros h H; cbn [fold_left]; [exact H|apply IH; exact H]).
  apply G. cbn [uniform]. auto.
Qed.

(** The 1e-15 is what makes this true: without it the division of the comment in
    the code asks for the next rank. *)
Theorem C93_adjustment_needed : dfloor (Bopp (dmul (of_Z 150000) (quotient 131058 150000))) = Some (- 131059).
Proof. vm_compute. reflexivity. Qed.
Print Assumptions C93_adjustment_needed.
