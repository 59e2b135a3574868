(** C35, C36, C37, C64: StatsQuantile. *)
From Coq Require Import List Arith ZArith QArith Qround NArith Lia Bool Permutation Sorted ZifyBool ZifyNat ZifyN Lqa.
From Verif Require Import Common CommonFacts ListFacts Arith Quantile_Model Quantile_Spec Quantile_Facts Quantile_Merge Quantile_Bin Quantile_Collapse Quantile_Proofs Quantile_Query Quantile_Error Quantile_History Quantile_Eps.
Import ListNotations.
Local Open Scope Z_scope.

(** ** C35: accounting. After any history of additions, merges, resets and
    queries the object retains weighted samples whose weights add up to the number
    of samples it stands for, every retained value is one of the samples, every
    full buffer is sorted and nothing aborted or misbehaved on the way. *)
Lemma eval_basic h : legal h -> small h -> exists s F P E, eval h = Ok s /\ Inv s F P (samples h) E
  /\ q_count s = Z.of_nat (length (samples h)) /\ nbuffers s = hnb h /\ buffer_size s = hbs h /\ q_nbound s = hbound h.
Proof.
  intros Lg Sm. destruct (eval_inv (fun _ _ => True)) with (h := h) as (s & F & P & E & H1 & H2 & _ & H3); auto. exists s, F, P, E. auto.
Qed.

Theorem C35_accounting_partial : forall h, legal h -> small h -> exists s, eval h = Ok s
  /\ q_count s = Z.of_nat (length (samples h))
  /\ total_weight (retained s) = Z.of_nat (length (samples h))
  /\ (forall v w, In (v, w) (retained s) -> In v (samples h) /\ 1 <= w)
  /\ (forall i, Z.of_nat i < cur_buffer s -> StronglySorted Z.le (contents s i) /\ length (contents s i) = buffer_size s).
Proof.
  intros h Lg Sm. destruct (eval_basic h Lg Sm) as (s & F & P & E & Ee & I & C & _). exists s. split; auto. split; auto.
  pose proof I as [R Cn K D Er]. destruct R as [[R N]|(R & -> & ->)].
  - split; [rewrite (total_retained s F P R), Cn; reflexivity|]. split.
    + intros v w H. split.
      * apply K. rewrite <- blist_kept with (nb := nbuffers s). apply (retained_values s F P v R). apply (in_map fst) in H. exact H.
      * rewrite (retained_spec s F P R) in H. apply in_flat_map in H. destruct H as (b & Hb & H). apply in_map_iff in H. destruct H as (x & H & _). injection H as <- <-.
        unfold blist in Hb. apply in_app_or in Hb. destruct Hb as [Hb|[<-|[]]]; [|simpl; lia].
        apply In_nth_error in Hb. destruct Hb as (j & Hj). destruct b as [w0 vs]. destruct (weigh_nth _ _ _ _ _ Hj) as (y & Ey & -> & _). cbn [fst].
        assert (L := rf_lt _ _ _ R). apply nth_error_lt in Ey. destruct (nbuffers s - j)%nat eqn:Eq; [lia|]. pose proof (wt_pos n (fst y)). lia.
    + intros i Hi. rewrite (rf_cur _ _ _ R) in Hi. destruct (nth_error F i) as [b|] eqn:Eb; [|apply nth_error_None in Eb; lia].
      destruct (rf_full _ _ _ R i b Eb) as (A1 & A2 & A3 & _). unfold contents. rewrite A1. unfold used. rewrite (rf_cur _ _ _ R). replace (Z.of_nat i <? Z.of_nat (length F)) with true by lia.
      rewrite <- A2, <- (map_length Some), firstn_all. assert (CV : forall l, cell_values (map Some l) = l) by (clear; induction l as [|x l IHl]; [reflexivity|]; unfold cell_values in *; cbn; now rewrite IHl).
      rewrite CV, map_length. split; auto.
  - rewrite (retained_empty s R). unfold fcount in Cn. simpl in Cn. split; [cbn; lia|]. split; [intros v w []|]. destruct R as (_ & -> & _). intros; lia.
Qed.
Print Assumptions C35_accounting_partial.

(** 30 samples into 2 buffers of 10, so that buffers have been collapsed, then a
    query, a merge of 25 more and a reset of a third object. *)
Definition fill (h : hist) (l : list Z) : hist := fold_left HAdd l h.
Definition ex_hist : hist :=
  HQuery (HMerge (fill (HNew 5000000 true 2 10) [9;3;7;1;8;2;6;4;5;0;19;13;17;11;18;12;16;14;15;10;29;23;27;21;28;22;26;24;25;20])
                 (fill (HReset (fill (HNew 5000000 false 2 10) [1;2;3])) [49;43;47;41;48;42;46;44;45;40;59;53;57;51;58;52;56;54;55;50;69;63;67;61;68])) (1 # 2) false.
Example C35_accounting_partial_ex : legal ex_hist /\ small ex_hist /\ length (samples ex_hist) = 55%nat.
Proof.
  split; [|split; [|reflexivity]].
  - vm_compute. repeat split; try lia; try (left; discriminate); try discriminate. right. discriminate.
  - vm_compute. repeat split; auto.
Qed.

(** Two histories on which the program runs off its arrays. (a) The array of read
    positions has one entry per cell of a buffer but is indexed by the number of
    the buffer: with more buffers than cells per buffer the first collapse writes
    past its end. The public constructor chooses such sizes for error 0.1665 and
    9991 samples. *)
Theorem C35_too_many_buffers_refuted : exists s0, q_new (1665 # 10000) 9991 true = Ok s0 /\ nbuffers s0 = 11%nat /\ buffer_size s0 = 10%nat
  /\ add_all s0 (map Z.of_nat (seq 0 110)) <> UB /\ add_all s0 (map Z.of_nat (seq 0 111)) = UB.
Proof. eexists. split; [vm_compute; reflexivity|]. split; [reflexivity|]. split; [reflexivity|]. split; [vm_compute; discriminate|vm_compute; reflexivity]. Qed.
Print Assumptions C35_too_many_buffers_refuted.

(** (b) Merging an object that never got a sample into one that has samples reads
    the buffer before the first one. *)
Theorem C35_merge_empty_refuted : forall v, eval (HMerge (HAdd (HNew 1000 true 2 10) v) (HNew 1000 true 2 10)) = UB.
Proof. intros v. vm_compute. reflexivity. Qed.
Print Assumptions C35_merge_empty_refuted.

(** ** C36: searches and exactness *)
Lemma element_isort l t v : 0 <= t -> nth_error (isort l) (Z.to_nat t) = Some v -> element_at l t v.
Proof. intros. exists (isort l). split; [symmetry; apply isort_perm|]. split; [apply isort_sorted|]. auto. Qed.

(** Once the buffer being filled has been sorted, both searches return, for every
    index, the element at that position of the sorted multiset of retained values
    (each repeated by its weight). *)
Theorem C36_searches : forall h s s', legal h -> small h -> samples h <> [] -> eval h = Ok s -> sort_for_query s = Ok s' ->
  Permutation (weighted (retained s')) (weighted (retained s)) /\
  forall t, 0 <= t < Z.of_nat (length (samples h)) ->
    exists v, getQuantileByIndex s' t = Ok (Some v) /\ getQuantileByBinSearchIndex s' t = Ok v /\ element_at (weighted (retained s')) t v.
Proof.
  intros h s s' Lg Sm Nh Es Es'. destruct (eval_basic h Lg Sm) as (s1 & F & P & E & Ee & I & C & _). rewrite Es in Ee. injection Ee as <-.
  pose proof I as [R Cn K D Er]. assert (LX : (1 <= length (samples h))%nat) by (destruct (samples h); [congruence|simpl; lia]).
  destruct R as [[R N]|(_ & -> & ->)]; [|unfold fcount in Cn; simpl in Cn; lia].
  assert (NP : P <> []). { destruct N as [N| ->]; auto. intros ->. unfold fcount in Cn. simpl in Cn. lia. }
  destruct (sort_for_query_spec s F P R) as (s2 & E2 & R2 & (S1 & S2 & S3 & S4 & S5) & _). rewrite Es' in E2. injection E2 as <-.
  assert (NP' : isort P <> []). { intros H. apply NP. pose proof (isort_length P) as L. rewrite H in L. now destruct P. }
  assert (FC : fcount (nbuffers s') (buffer_size s') F (isort P) = length (samples h)) by (rewrite <- Cn, S1, S2; unfold fcount; now rewrite isort_length).
  rewrite (weighted_retained s' F (isort P) R2), (weighted_retained s F P R), S1. split.
  { rewrite !blist_mass. apply Permutation_app_head, isort_perm. }
  intros t Ht. destruct (by_index_search_spec s' F (isort P) t R2 (isort_sorted P) NP') as (v & V1 & V2). { rewrite FC. exact Ht. }
  destruct (bin_search_spec s' F (isort P) t R2 (isort_sorted P) NP') as (v' & V3 & V4). { rewrite FC, S4. exact C. } { rewrite S4, C. exact Ht. }
  rewrite V2 in V4. injection V4 as <-. exists v. split; auto. split; auto. apply element_isort; [lia|]. rewrite S1 in V2. exact V2.
Qed.
Print Assumptions C36_searches.
Example C36_searches_ex : exists s s', eval ex_hist = Ok s /\ sort_for_query s = Ok s' /\ samples ex_hist <> [].
Proof. eexists _, _. split; [vm_compute; reflexivity|]. split; [vm_compute; reflexivity|]. vm_compute. discriminate. Qed.

(** While the samples fit into the buffers, getQuantile(q) is exact: it returns
    the element of rank query_rank n q. *)
Theorem C36_exact_before_collapse : forall nbound lazy nb bs l q allow,
  (2 <= nb)%nat -> (10 <= bs)%nat -> (nb <= bs)%nat -> Z.of_nat bs < 2 ^ 31 ->
  l <> [] -> (length l <= nb * bs)%nat -> Z.of_nat (length l) < 10 ^ 14 -> (0 <= q <= 1)%Q -> allow = true \/ Z.of_nat (length l) <= nbound ->
  exists s0 s v s', q_init nbound lazy nb bs = Ok s0 /\ add_all s0 l = Ok s /\ getQuantile (A := exact) s (Fin q) allow = Ok (Some v, s')
    /\ element_at l (query_rank (Z.of_nat (length l)) q - 1) v.
Proof.
  intros nbound lazy nb bs l q allow H1 H2 H3 H4 Nl Fit Sm Hq Ha. destruct (qinit_spec nbound lazy nb bs H1 H2 H3 H4) as (s0 & E0 & R0 & En & Eb & Eq & Ec & Ev).
  assert (I0 : Inv s0 [] [] [] 0). { split; rewrite ?Ev; [exact R0|unfold fcount; cbn; lia|intros x []|cbn; lia|intros; cbn; lia]. }
  destruct (add_all_spec l s0 [] [] [] 0 I0 Ec ltac:(simpl; lia)) as (s & F & P & Es & I & C & Q & B & K & _). cbn [app] in *.
  destruct (query_spec s F P l 0 q allow I C) as (v & s' & E1 & _ & _ & R1 & R2); auto. { lia. } { rewrite C, Q, Eq. exact Ha. }
  exists s0, s, v, s'. split; auto. split; auto. split; auto. rewrite C in R1, R2.
  destruct (position s F P l 0 v _ I R2) as (p & Hp & Ep). pose proof (fits_exact s F P l 0 I ltac:(rewrite B, K, En, Eb; exact Fit)) as Z0. rewrite Z0 in Ep.
  pose proof (in_delta _ _ _ _ _ I) as Dd. rewrite Z0 in Dd. assert (p = query_rank (Z.of_nat (length l)) q - 1) by lia. now subst p.
Qed.
Print Assumptions C36_exact_before_collapse.
Example C36_exact_ex : exists s0 s s', q_init 1000 true 2 10 = Ok s0 /\ add_all s0 [5;1;4;1;3] = Ok s /\ getQuantile (A := exact) s (Fin (1 # 2)) false = Ok (Some 3, s')
  /\ query_rank 5 (1 # 2) = 3.
Proof. eexists _, _, _. split; [vm_compute; reflexivity|]. split; [vm_compute; reflexivity|]. split; [vm_compute; reflexivity|reflexivity]. Qed.

(** query_rank n q is the rank ceil(n*q) (at least 1), except that a fractional
    part of n*q of at most n/1e15 is rounded down. *)
Theorem C36_rank : forall n q, 1 <= n < 10 ^ 14 -> (0 <= q)%Q ->
  Qceiling (inject_Z n * q) - 1 <= query_rank n q <= Z.max 1 (Qceiling (inject_Z n * q))
  /\ ((inject_Z (Qfloor (inject_Z n * q)) + (1 # 10) < inject_Z n * q)%Q \/ (inject_Z (Qfloor (inject_Z n * q)) == inject_Z n * q)%Q ->
      query_rank n q = Z.max 1 (Qceiling (inject_Z n * q))).
Proof.
  intros n q Hn Hq. unfold query_rank. set (x := (inject_Z n * q)%Q). set (d := (inject_Z n * (1 # 1000000000000000))%Q).
  assert (En : (inject_Z n <= inject_Z (10 ^ 14))%Q) by (rewrite <- Zle_Qle; lia). assert (En0 : (1 <= inject_Z n)%Q) by (unfold Qle; simpl; lia).
  assert (E14 : (inject_Z (10 ^ 14) == 100000000000000 # 1)%Q) by (vm_compute; reflexivity).
  assert (Hd : (0 < d <= 1 # 10)%Q). { unfold d. rewrite E14 in En. split; lra. }
  assert (Ex : (inject_Z n * (q - (1 # 1000000000000000)) == x - d)%Q) by (unfold x, d; ring). rewrite (Qceiling_comp _ _ Ex).
  assert (Cu : Qceiling (x - d) <= Qceiling x) by (apply Qceiling_resp_le; lra).
  pose proof (Qle_ceiling (x - d)) as C1. pose proof (Qceiling_lt x) as C2. pose proof (Qfloor_le x) as C3. pose proof (Qlt_floor x) as C4. pose proof (Qle_ceiling x) as C5.
  assert (Cl : Qceiling x - 1 <= Qceiling (x - d)).
  { destruct (Z.le_gt_cases (Qceiling x - 1) (Qceiling (x - d))) as [H|H]; auto. exfalso.
    assert (Z1 : Qceiling (x - d) + 1 <= Qceiling x - 1) by lia. rewrite Zle_Qle in Z1. rewrite inject_Z_plus in Z1. change (inject_Z 1) with 1%Q in Z1. lra. }
  split; [lia|]. intros H. f_equal. destruct H as [H|H].
  - assert (Qceiling x <= Qceiling (x - d)); [|lia]. destruct (Z.le_gt_cases (Qceiling x) (Qceiling (x - d))) as [L|L]; auto. exfalso.
    assert (Z1 : Qceiling (x - d) <= Qceiling x - 1) by lia. rewrite Zle_Qle in Z1.
    assert (Z2 : Qceiling x - 1 <= Qfloor x). { rewrite <- (Qfloor_Z (Qceiling x - 1)). apply Qfloor_resp_le. lra. } rewrite Zle_Qle in Z2. lra.
  - assert (Qceiling x <= Qceiling (x - d)); [|lia]. assert (Eq : Qceiling x = Qfloor x) by (rewrite <- (Qceiling_Z (Qfloor x)); apply Qceiling_comp; symmetry; exact H). rewrite Eq.
    destruct (Z.le_gt_cases (Qfloor x) (Qceiling (x - d))) as [L|L]; auto. exfalso. assert (Z1 : Qceiling (x - d) + 1 <= Qfloor x) by lia. rewrite Zle_Qle, inject_Z_plus in Z1. change (inject_Z 1) with 1%Q in Z1. lra.
Qed.
Print Assumptions C36_rank.
Example C36_rank_ex : query_rank 1000 (9 # 10) = 900 /\ query_rank 1000 (9995 # 10000) = 1000 /\ query_rank 7 0 = 1 /\ query_rank 7 1 = 7 /\ query_rank 3 (1 # 3) = 1.
Proof. repeat split. Qed.

(** ** C37: the rank error is bounded by what the collapses hide (Manku,
    Rajagopalan and Lindsay): at most half of the total of (weight - 1) over all
    collapses, plus one half. *)
Theorem C37_rank_error : forall nbound lazy nb bs l q allow,
  (2 <= nb)%nat -> (10 <= bs)%nat -> (nb <= bs)%nat -> Z.of_nat bs < 2 ^ 31 ->
  l <> [] -> Z.of_nat (length l) < 10 ^ 14 -> (0 <= q <= 1)%Q -> allow = true \/ Z.of_nat (length l) <= nbound ->
  exists s0 s v s' p, q_init nbound lazy nb bs = Ok s0 /\ add_all s0 l = Ok s /\ getQuantile (A := exact) s (Fin q) allow = Ok (Some v, s')
    /\ element_at l (p - 1) v
    /\ 2 * Z.abs (p - query_rank (Z.of_nat (length l)) q) <= hidden (collapse_weights s0 l) + 1.
Proof.
  intros nbound lazy nb bs l q allow H1 H2 H3 H4 Nl Sm Hq Ha. destruct (qinit_spec nbound lazy nb bs H1 H2 H3 H4) as (s0 & E0 & R0 & En & Eb & Eq & Ec & Ev).
  assert (I0 : Inv s0 [] [] [] 0). { split; rewrite ?Ev; [exact R0|unfold fcount; cbn; lia|intros x []|cbn; lia|intros; cbn; lia]. }
  destruct (add_all_spec l s0 [] [] [] 0 I0 Ec ltac:(simpl; lia)) as (s & F & P & Es & I & C & Q & B & K & Hh). cbn [app hidF Nat.add] in *.
  destruct (query_spec s F P l 0 q allow I C) as (v & s' & E1 & _ & _ & R1 & R2); auto. { lia. } { rewrite C, Q, Eq. exact Ha. }
  rewrite C in R1, R2. destruct (position s F P l 0 v _ I R2) as (p & Hp & Ep). rewrite B in Ep. cbn [Nat.add] in Ep.
  exists s0, s, v, s', (p + 1). split; auto. split; auto. split; auto. split; [now replace (p + 1 - 1) with p by lia|].
  assert (0 <= delta (collapse_even_low s) <= 1) by (unfold delta; destruct (collapse_even_low s); lia). lia.
Qed.
Print Assumptions C37_rank_error.
(** five collapses, of weights 2, 3, 4, 5 and 6 *)
Example C37_rank_error_ex : exists s0 s, q_init 1000 true 2 10 = Ok s0 /\ add_all s0 (map (fun i => Z.of_nat (i * 37 mod 61)) (seq 0 61)) = Ok s
  /\ collapse_weights s0 (map (fun i => Z.of_nat (i * 37 mod 61)) (seq 0 61)) = [2; 3; 4; 5; 6]
  /\ hidden [2; 3; 4; 5; 6] = 15.
Proof. eexists _, _. split; [vm_compute; reflexivity|]. split; [vm_compute; reflexivity|]. split; [vm_compute; reflexivity|reflexivity]. Qed.

(** ** C64: the constructor's promise. An object made with error eps for nbound
    samples answers every query, as long as it holds at most nbound samples, with
    a sample whose rank is off by at most eps times the number of samples. Merges
    into non-empty objects keep the error of the other object, so with merges the
    bound counts those samples again. The search for the buffer sizes gives up at
    h = 40 without checking the last step; the hypothesis on error_weight excludes
    that (it holds for every practical eps and nbound). *)
Theorem C64_eps_guarantee : forall eps n lazy s0 h q,
  (0 <= eps)%Q -> q_new eps n lazy = Ok s0 ->
  (nbuffers s0 <= buffer_size s0)%nat ->
  (2 * eps * inject_Z (Z.max 100 n) < inject_Z (error_weight (Z.of_nat (nbuffers s0)) 39))%Q ->
  uniform (Z.max 100 n) (nbuffers s0) (buffer_size s0) h -> within (Z.max 100 n) h -> legal h -> small h -> samples h <> [] -> (0 <= q <= 1)%Q ->
  exists s v s' p, eval h = Ok s /\ getQuantile (A := exact) s (Fin q) false = Ok (Some v, s')
    /\ element_at (samples h) (p - 1) v
    /\ (inject_Z (Z.abs (p - query_rank (Z.of_nat (length (samples h))) q)) <= eps * inject_Z (Z.of_nat (length (samples h) + carried h)))%Q.
Proof.
  intros eps n lazy s0 h q He En Hb Lim Un Wi Lg Sm Nh Hq. destruct (new_sized eps n lazy s0 En) as (nb & bs & Ei & Hn & Hs & Hs2 & Sz).
  assert (Sh : nbuffers s0 = nb /\ buffer_size s0 = bs). { unfold q_init in Ei. destruct (1 <? nb)%nat, (10 <=? bs)%nat; cbn [invariant bind] in Ei; try discriminate. injection Ei as <-. unfold init_buffers. fields. destruct lazy; auto. }
  destruct Sh as [Ea Eb]. rewrite Ea, Eb in *. specialize (Sz Lim).
  destruct (eps_inv eps (Z.max 100 n) nb bs h He Sz Lg Sm Un Wi) as (s & F & P & E & Ee & I & C & Nb & B).
  assert (Sc : Z.of_nat (length (samples h)) < 10 ^ 14) by (destruct h; cbn [small] in Sm; apply Sm).
  destruct (query_spec s F P (samples h) E q false I C) as (v & s' & E1 & _ & _ & R1 & R2); auto. { lia. } { right. rewrite C, Nb. now apply within_len. }
  rewrite C in R1, R2. destruct (position s F P (samples h) E v _ I R2) as (p & Hp & Ep).
  exists s, v, s', (p + 1). split; auto. split; auto. split; [now replace (p + 1 - 1) with p by lia|].
  replace (p + 1 - query_rank (Z.of_nat (length (samples h))) q) with (p - Z.of_nat (Z.to_nat (query_rank (Z.of_nat (length (samples h))) q - 1))) by lia.
  set (d := Z.abs (p - _)) in *. assert (Ed : (inject_Z (2 * d) <= 2 * eps * inject_Z (Z.of_nat (length (samples h) + carried h)))%Q) by (eapply Qle_trans; [|exact B]; rewrite <- Zle_Qle; exact Ep).
  rewrite inject_Z_mult in Ed. change (inject_Z 2) with 2%Q in Ed. lra.
Qed.
Print Assumptions C64_eps_guarantee.

(** The default constructor: error 0.01 for 1e9 samples gives 10 buffers of 765. *)
Lemma samples_fill l h : samples (fill h l) = samples h ++ l.
Proof. unfold fill. revert h; induction l as [|v l IH]; intros; cbn [fold_left]; [now rewrite app_nil_r|]. rewrite IH. cbn [samples]. now rewrite <- app_assoc. Qed.
Lemma fill_eval l : forall h s0, eval h = Ok s0 -> eval (fill h l) = add_all s0 l.
Proof.
  assert (G : forall l h, eval (fill h l) = bind (eval h) (fun s => add_all s l)).
  { unfold fill. clear. induction l as [|v l IH]; intros; cbn [fold_left]; [cbn [add_all]; now destruct (eval h)|]. rewrite IH. cbn [eval]. destruct (eval h); auto. }
  intros h s0 E. now rewrite G, E.
Qed.
Lemma fill_props l : forall h N, legal h -> uniform N (hnb h) (hbs h) h -> small h -> within N h -> Z.of_nat (length (samples h) + length l) < 10 ^ 14 -> Z.of_nat (length (samples h) + length l) <= N ->
  legal (fill h l) /\ uniform N (hnb h) (hbs h) (fill h l) /\ small (fill h l) /\ within N (fill h l) /\ carried (fill h l) = carried h.
Proof.
  unfold fill. induction l as [|v l IH]; intros h N Lg Un Sm Wi H1 H2; cbn [fold_left]; [auto 6|]. cbn [length] in *.
  destruct (IH (HAdd h v) N) as (A & B & C & D & F); cbn [samples small within legal uniform]; rewrite ?app_length; cbn [length]; auto; try lia; try (split; auto; lia).
Qed.

Theorem C64_default : forall lazy l q, l <> [] -> Z.of_nat (length l) <= 10 ^ 9 -> (0 <= q <= 1)%Q ->
  exists s0 s v s' p, q_new (1 # 100) (10 ^ 9) lazy = Ok s0 /\ nbuffers s0 = 10%nat /\ buffer_size s0 = 765%nat
    /\ add_all s0 l = Ok s /\ getQuantile (A := exact) s (Fin q) false = Ok (Some v, s')
    /\ element_at l (p - 1) v
    /\ (inject_Z (Z.abs (p - query_rank (Z.of_nat (length l)) q)) <= (1 # 100) * inject_Z (Z.of_nat (length l)))%Q.
Proof.
  intros lazy l q Nl Hl Hq.
  assert (En : q_new (1 # 100) (10 ^ 9) lazy = q_init (10 ^ 9) lazy 10 (Z.to_nat 765)).
  { unfold q_new. assert (Fb : find_bk 28 2 (1 # 100) (10 ^ 9) None = Some (10, 765)) by (vm_compute; reflexivity).
    replace (if 10 ^ 9 <? 100 then 100 else 10 ^ 9) with (10 ^ 9) by reflexivity. rewrite Fb. reflexivity. }
  assert (Ei : exists s0, q_init (10 ^ 9) lazy 10 (Z.to_nat 765) = Ok s0 /\ nbuffers s0 = 10%nat /\ buffer_size s0 = 765%nat).
  { destruct (qinit_spec (10 ^ 9) lazy 10 (Z.to_nat 765)) as (s0 & E0 & _ & En0 & Eb & _); [lia|lia|lia|lia|]. exists s0. split; auto. }
  destruct Ei as (s0 & E0 & E1 & E2). rewrite E0 in En. exists s0.
  destruct (fill_props l (HNew (10 ^ 9) lazy 10 (Z.to_nat 765)) (10 ^ 9)) as (A & B & C & D & F).
  { cbn [legal]. lia. } { cbn [uniform hnb hbs shape fst snd]. auto. } { cbn [small samples length]. lia. } { cbn [within samples length]. lia. } { cbn [samples length Nat.add]. lia. } { cbn [samples length Nat.add]. lia. }
  destruct (C64_eps_guarantee (1 # 100) (10 ^ 9) lazy s0 (fill (HNew (10 ^ 9) lazy 10 (Z.to_nat 765)) l) q) as (s & v & s' & p & K1 & K2 & K3 & K4); auto.
  - lra.
  - lia.
  - rewrite E1. vm_compute. reflexivity.
  - rewrite E1, E2. exact B.
  - rewrite samples_fill. exact Nl.
  - rewrite (fill_eval l (HNew (10 ^ 9) lazy 10 (Z.to_nat 765)) s0 E0) in K1. rewrite samples_fill in K3, K4. cbn [samples app] in K3, K4. rewrite F in K4. cbn [carried] in K4. rewrite Nat.add_0_r in K4.
    exists s, v, s', p. auto 8.
Qed.
Print Assumptions C64_default.
Example C64_ex : exists s0, q_new (1 # 20) 1000 true = Ok s0 /\ (nbuffers s0 <= buffer_size s0)%nat
  /\ (2 * (1 # 20) * inject_Z 1000 < inject_Z (error_weight (Z.of_nat (nbuffers s0)) 39))%Q
  /\ exists h, uniform 1000 (nbuffers s0) (buffer_size s0) h /\ within 1000 h /\ legal h /\ small h /\ carried h = 300%nat /\ length (samples h) = 600%nat.
Proof.
  eexists. split; [vm_compute; reflexivity|]. split; [apply Nat.leb_le; vm_compute; reflexivity|]. split; [vm_compute; reflexivity|]. cbn [nbuffers buffer_size].
  set (h0 := HNew 1000 true 3 48). assert (G : forall l, length l = 300%nat -> legal (fill h0 l) /\ uniform 1000 3 48 (fill h0 l) /\ small (fill h0 l) /\ within 1000 (fill h0 l) /\ carried (fill h0 l) = 0%nat).
  { intros l Hl. apply (fill_props l h0 1000); unfold h0; cbn [legal uniform small within samples length]; rewrite ?Hl; try lia; cbn; auto. }
  exists (HMerge (fill h0 (map Z.of_nat (seq 0 300))) (fill h0 (map Z.of_nat (seq 100 300)))).
  destruct (G (map Z.of_nat (seq 0 300))) as (A1 & A2 & A3 & A4 & A5); [now rewrite map_length, seq_length|].
  destruct (G (map Z.of_nat (seq 100 300))) as (B1 & B2 & B3 & B4 & B5); [now rewrite map_length, seq_length|].
  assert (L1 : length (samples (fill h0 (map Z.of_nat (seq 0 300)))) = 300%nat) by (now rewrite samples_fill, app_length, map_length, seq_length).
  assert (L2 : length (samples (fill h0 (map Z.of_nat (seq 100 300)))) = 300%nat) by (now rewrite samples_fill, app_length, map_length, seq_length).
  cbn [uniform within legal small samples carried]. rewrite app_length, L1, L2, A5, B5.
  split; [auto|]. split; [split; [lia|auto]|]. split; [split; [auto|split; [auto|left; intros H; rewrite H in L2; discriminate]]|]. split; [split; [lia|auto]|].
  split; [|reflexivity]. destruct (samples (fill h0 (map Z.of_nat (seq 0 300)))); [discriminate L1|reflexivity].
Qed.
