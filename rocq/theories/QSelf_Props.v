(** C97: adding a StatsQuantile to itself. *)
From Coq Require Import List Arith ZArith QArith Qround NArith Lia Bool Permutation Sorted ZifyBool ZifyNat ZifyN.
From Verif Require Import Common CommonFacts ListFacts Arith Quantile_Model Quantile_Spec Quantile_Facts Quantile_Merge Quantile_Bin Quantile_Collapse Quantile_Proofs Quantile_Query Quantile_Error Quantile_History Quantile_Props QSelf_Model.
Import ListNotations.
Local Open Scope Z_scope.

(** ** The state after additions: a query aborts unless the weights add up to the count. *)
Definition Good (s : quantile) : Prop := exists F P, RepF s F P /\ P <> [].

Lemma count_rep s F P n : RepF s F P -> RepF (set_count s n) F P.
Proof. intros [Sh ? ? ? ? ? ? ? ? ? ?]. split; auto. destruct Sh; split; auto. Qed.

Lemma good_add s v : Good s -> q_count s < 10 ^ 14 -> exists s', addQuantile s v = Ok s' /\ Good s' /\ q_count s' = q_count s.
Proof.
  intros (F & P & R & N) C. destruct (add_spec s F P v (or_introl (conj R (or_introl N))) C) as (s' & e & F' & P' & E & _ & R' & N' & (_ & _ & _ & Sm & _) & _).
  exists s'. split; auto. split; auto. exists F', P'. auto.
Qed.

Lemma good_times : forall n k at_ v s s', Good s -> q_count s < 10 ^ 14 -> self_times n k at_ v s = Ok s' -> Good s' /\ q_count s' = q_count s.
Proof.
  induction n as [|n IH]; intros k at_ v s s' G C E; cbn [self_times] in E; destruct (at_ s) as [i| | |]; cbn [bind] in E; try discriminate;
    destruct (get (buffer_weight s) i) as [w| | |]; cbn [bind] in E; try discriminate; destruct (k <? w); try discriminate; try (injection E as <-; auto).
  destruct (good_add s v G C) as (s1 & E1 & G1 & C1). rewrite E1 in E. cbn [bind] in E. destruct (IH _ _ _ _ _ G1 ltac:(lia) E). split; auto. lia.
Qed.

Lemma good_values : forall f n j lim b at_ s s', Good s -> q_count s < 10 ^ 14 -> self_values f n j lim b at_ s = Ok s' -> Good s' /\ q_count s' = q_count s.
Proof.
  induction f as [|f IH]; intros n j lim b at_ s s' G C E; cbn [self_values] in E; destruct (j <? lim s)%nat; try discriminate; try (injection E as <-; auto).
  destruct (buffer_of s b) as [c| | |]; cbn [bind] in E; try discriminate. destruct (get c j) as [[v|]| | |]; cbn [bind] in E; try discriminate.
  destruct (self_times n 0 at_ v s) as [s1| | |] eqn:E1; cbn [bind] in E; try discriminate. destruct (good_times _ _ _ _ _ _ G C E1) as [G1 C1].
  destruct (IH _ _ _ _ _ _ _ G1 ltac:(lia) E). split; auto. lia.
Qed.

Lemma good_buffers : forall f n i s s', Good s -> q_count s < 10 ^ 14 -> self_buffers f n i s = Ok s' -> Good s' /\ q_count s' = q_count s.
Proof.
  induction f as [|f IH]; intros n i s s' G C E; cbn [self_buffers] in E; destruct (Z.of_nat i <? cur_buffer s); try discriminate; try (injection E as <-; auto).
  destruct (self_values n n 0 buffer_size i (fun _ => Ok i) s) as [s1| | |] eqn:E1; cbn [bind] in E; try discriminate. destruct (good_values _ _ _ _ _ _ _ _ G C E1) as [G1 C1].
  destruct (IH _ _ _ _ G1 ltac:(lia) E). split; auto. lia.
Qed.

(** A query: the answer when the weights add up to the count, otherwise an abort. *)
Lemma query_any s F P : RepF s F P -> P <> [] -> 1 <= q_count s < 10 ^ 14 -> forall q allow, (0 <= q <= 1)%Q -> allow = true \/ q_count s <= q_nbound s ->
  if q_count s =? total_weight (retained s)
  then exists v s', getQuantile (A := exact) s (Fin q) allow = Ok (Some v, s') /\ element_at (weighted (retained s)) (query_rank (q_count s) q - 1) v
  else getQuantile (A := exact) s (Fin q) allow = Abort.
Proof.
  intros R N Cs q allow Hq Ha. unfold getQuantile. replace (q_count s =? 0) with false by lia.
  replace ((q_count s <=? q_nbound s) || allow) with true by (destruct Ha as [-> |Ha]; [now rewrite orb_true_r|symmetry; apply orb_true_iff; left; lia]). cbn [invariant bind].
  cbn [nle of_int exact xle]. destruct Hq as [Hq1 Hq2]. assert (B1 : Qle_bool (inject_Z 0) q = true) by (apply Qle_bool_iff; exact Hq1). assert (B2 : Qle_bool q (inject_Z 1) = true) by (apply Qle_bool_iff; exact Hq2).
  rewrite B1, B2. cbn [andb invariant bind].
  destruct (sort_for_query_spec s F P R) as (s' & E1 & R1 & (S1 & S2 & S3 & S4 & S5) & Ev). rewrite E1. cbn [bind]. rewrite S4.
  replace (q_count s <? 10 ^ 14) with true by lia. cbn [invariant bind].
  destruct (target_spec (q_count s) q) as [T1 T2]; [lia|split; auto|]. rewrite T1. cbn [bind].
  assert (NP' : isort P <> []). { intros H. apply N. pose proof (isort_length P) as L. rewrite H in L. now destruct P. }
  assert (FC : fcount (nbuffers s) (buffer_size s) F (isort P) = fcount (nbuffers s) (buffer_size s) F P) by (unfold fcount; now rewrite isort_length).
  rewrite (total_retained s F P R). destruct (q_count s =? Z.of_nat (fcount (nbuffers s) (buffer_size s) F P)) eqn:Eq.
  - destruct (bin_search_spec s' F (isort P) (query_rank (q_count s) q - 1)%Z R1 (isort_sorted P) NP') as (v & E2 & V).
    { rewrite S1, S2, S4, FC. lia. } { rewrite S4. lia. }
    rewrite E2. cbn [bind]. exists v, s'. split; auto. rewrite (weighted_retained s F P R). exists (isort (massL (blist (nbuffers s) F P))).
    split; [symmetry; apply isort_perm|]. split; [apply isort_sorted|]. split; [lia|]. rewrite S1 in V.
    rewrite (isort_unique _ (isort (massL (blist (nbuffers s) F P)))) in V; auto; [|apply isort_sorted].
    assert (PM : Permutation (massL (blist (nbuffers s) F (isort P))) (massL (blist (nbuffers s) F P))) by (rewrite !blist_mass; apply Permutation_app_head, isort_perm).
    rewrite PM. symmetry. apply isort_perm.
  - enough (E2 : getQuantileByBinSearchIndex s' (query_rank (q_count s) q - 1) = Abort) by now rewrite E2.
    pose proof R1 as [Sh C Lt Ps Le Fu Mo (c & Eb & Ec) Wt Lv (so & Eso & Hso)].
    unfold getQuantileByBinSearchIndex. rewrite C, index_nat. cbn [bind]. rewrite Ps. assert (LP : (0 < length (isort P))%nat) by (destruct (isort P); simpl; [congruence|lia]).
    replace (0 <? length (isort P))%nat with true by lia. rewrite put_ok by (rewrite repeat_length; lia). cbn [bind].
    rewrite (count_loop s' (buffer_size s') F 0 0%Z). 2: { intros i b E. apply (Fu i b E). }
    cbn [bind]. rewrite Nat.sub_0_r, S1, S2, S4.
    match goal with |- context [invariant ?b] => replace b with false end; [reflexivity|]. symmetry. apply Z.eqb_neq. apply Z.eqb_neq in Eq. rewrite <- FC in Eq. unfold fcount in Eq. lia.
Qed.

(** ** Objects that still fill their first buffer *)
Lemma times_one n v s F P : RepF s F P -> P <> [] -> q_count s < 10 ^ 14 -> (1 <= n)%nat ->
  exists s' e' F' P', self_times n 0 (fun s => index (cur_buffer s)) v s = Ok s' /\ astep (nbuffers s) (buffer_size s) (collapse_even_low s) F P v e' F' P'
    /\ RepF s' F' P' /\ P' <> [] /\ same s s'.
Proof.
  intros R N C Hn. destruct (add_spec s F P v (or_introl (conj R (or_introl N))) C) as (s' & e' & F' & P' & E & St & R' & N' & Sm & _).
  exists s', e', F', P'. split; auto. destruct n as [|n]; [lia|]. cbn [self_times]. rewrite (rf_cur _ _ _ R), index_nat. cbn [bind]. rewrite (get_nth _ _ _ (rf_wt _ _ _ R)). cbn [bind].
  change (0 <? 1) with true. cbv iota. rewrite E. cbn [bind]. destruct n as [|n]; cbn [self_times]; rewrite (rf_cur _ _ _ R'), index_nat; cbn [bind]; rewrite (get_nth _ _ _ (rf_wt _ _ _ R')); reflexivity.
Qed.

Lemma cell_at s P j d : RepF s [] P -> (j < length P)%nat -> exists c, buffer_of s 0 = Ok c /\ get c j = Ok (Some (nth j P d)).
Proof.
  intros R Hj. destruct (rf_buf _ _ _ R) as (c & Eb & Ec). cbn [length] in Eb. exists c. split. { unfold buffer_of. rewrite (get_nth _ _ _ Eb). reflexivity. }
  apply get_nth. assert (E : nth_error (firstn (length P) c) j = nth_error (map Some P) j) by now rewrite Ec. rewrite nth_error_firstn_lt in E by lia. rewrite E, nth_error_map, (nth_error_nth' P d) by lia. reflexivity.
Qed.

Lemma first_loop l n : forall f j s P, l <> [] -> (1 <= n)%nat -> RepF s [] P -> (length P = length l + j)%nat -> ((j <= length l)%nat -> P = l ++ firstn j l) -> (2 <= nbuffers s)%nat ->
  q_count s < 10 ^ 14 -> (buffer_size s + 1 <= f + length P)%nat ->
  exists s' P' v, self_values f n j cur_buffer_pos 0 (fun s => index (cur_buffer s)) s = Ok s' /\ RepF s' [(0%nat, isort P')] [v] /\ same s s' /\ length P' = buffer_size s
    /\ ((2 * length l = buffer_size s + 1)%nat -> P' ++ [v] = l ++ l).
Proof.
  induction f as [|f IH]; intros j s P Nl Hn R LP HP HB C Hf; pose proof (rf_le _ _ _ R) as Le. { lia. }
  assert (Ll : (1 <= length l)%nat) by (destruct l; [congruence|simpl; lia]). assert (NP : P <> []) by (intros ->; simpl in LP; lia).
  cbn [self_values]. rewrite (rf_pos _ _ _ R). replace (j <? length P)%nat with true by lia. destruct (cell_at s P j 0 R ltac:(lia)) as (c & Ec & Ev). rewrite Ec. cbn [bind]. rewrite Ev. cbn [bind].
  destruct (times_one n (nth j P 0) s [] P R NP C Hn) as (s1 & e1 & F1 & P1 & E1 & St & R1 & N1 & Sm). rewrite E1. cbn [bind].
  pose proof Sm as (S1 & S2 & S3 & S4 & S5).
  assert (HV : forall k, (k = j)%nat -> (k < length l)%nat -> nth k P 0 = nth k l 0). { intros k -> Hk. rewrite HP by lia. now rewrite app_nth1 by lia. }
  assert (FS : (j < length l)%nat -> firstn j l ++ [nth j l 0] = firstn (S j) l). { intros Hj. clear - Hj. revert j Hj. induction l as [|x l IHl]; intros [|j] Hj; simpl in *; try lia; auto. f_equal. apply IHl. lia. }
  inversion St as [H1|H1 H2|F2 G lv H1 H2]; subst.
  - destruct (IH (S j) s1 (P ++ [nth j P 0]) Nl Hn R1) as (s' & P' & v & E2 & R2 & Sm2 & L2 & X2).
    + rewrite app_length. simpl. lia.
    + intros Hj. rewrite (HV j eq_refl) by lia. rewrite HP at 1 by lia. rewrite <- app_assoc, FS by lia. reflexivity.
    + now rewrite S1.
    + now rewrite S4.
    + rewrite S2, app_length. simpl. lia.
    + exists s', P', v. split; auto. split; auto. split; [now apply (same_trans s s1 s')|]. rewrite S2 in L2, X2. split; auto.
  - cbn [app] in R1. exists s1, P, (nth j P 0). split. { destruct f; cbn [self_values]; rewrite (rf_pos _ _ _ R1); cbn [length]; replace (S j <? 1)%nat with false by lia; reflexivity. }
    split; auto. split; auto. split; auto. intros H2l. rewrite (HV j eq_refl) by lia. rewrite HP by lia. rewrite <- app_assoc, FS by lia. rewrite firstn_all2 by lia. reflexivity.
  - cbn [length] in *. lia.
Qed.

Lemma fill_first : forall l s P, (Rep s [] P) -> (length P + length l <= buffer_size s)%nat -> q_count s = Z.of_nat (length P) -> Z.of_nat (buffer_size s) < 2 ^ 31 ->
  exists s', add_all s l = Ok s' /\ (l <> [] -> RepF s' [] (P ++ l)) /\ nbuffers s' = nbuffers s /\ buffer_size s' = buffer_size s /\ q_nbound s' = q_nbound s /\ q_count s' = Z.of_nat (length (P ++ l)).
Proof.
  induction l as [|v l IH]; intros s P R L C B.
  - exists s. rewrite app_nil_r. split; [reflexivity|]. split; [congruence|]. auto.
  - cbn [add_all]. unfold q_add. cbn [length] in L.
    assert (R0 : Rep (set_count s (q_count s + 1)) [] P). { destruct R as [[R H]|[R H]]; [left; split; auto; now apply count_rep|right; split; auto]. destruct R as (Sh & A); split; auto. destruct Sh; split; auto. }
    destruct (add_spec _ [] P v R0) as (s1 & e & F' & P' & E & St & R1 & N1 & (S1 & S2 & S3 & S4 & S5) & _). { change (q_count s + 1 < 10 ^ 14). lia. }
    rewrite E. cbn [bind]. change (nbuffers s1 = nbuffers s) in S1. change (buffer_size s1 = buffer_size s) in S2. change (q_nbound s1 = q_nbound s) in S3. change (q_count s1 = q_count s + 1) in S4.
    change (buffer_size (set_count s (q_count s + 1))) with (buffer_size s) in St.
    inversion St as [H1|H1 H2|F2 G lv H1 H2]; subst; try lia.
    destruct (IH s1 (P ++ [v])) as (s' & A1 & A2 & A3 & A4 & A5 & A6).
    { left. split; auto. } { rewrite S2, app_length. simpl. lia. } { rewrite S4, app_length. simpl. lia. } { now rewrite S2. }
    exists s'. split; auto. rewrite <- app_assoc in *. cbn [app] in *. split.
    { intros _. destruct l as [|w l]; [|apply A2; discriminate]. cbn [add_all] in A1. injection A1 as <-. exact R1. }
    repeat split; congruence.
Qed.

(** Any number of samples up to the size of a buffer: the call adds as many values as are
    missing to fill the buffer, and one more. *)
Lemma first_buffer nbound lazy nb bs l : (2 <= nb)%nat -> (10 <= bs)%nat -> (nb <= bs)%nat -> Z.of_nat bs < 2 ^ 31 -> l <> [] -> (length l <= bs)%nat ->
  exists s0 s s' P' v, q_init nbound lazy nb bs = Ok s0 /\ add_all s0 l = Ok s /\ (forall n, (bs + 1 <= n)%nat -> q_self_merge n s = Ok s')
    /\ RepF s' [(0%nat, isort P')] [v] /\ length P' = bs /\ nbuffers s' = nb /\ buffer_size s' = bs /\ q_nbound s' = nbound /\ q_count s' = 2 * Z.of_nat (length l)
    /\ ((2 * length l = bs + 1)%nat -> P' ++ [v] = l ++ l).
Proof.
  intros A1 A2 A3 A4 Nl Ll. destruct (qinit_spec nbound lazy nb bs A1 A2 A3 A4) as (s0 & E0 & R0 & B1 & B2 & B3 & B4 & _). exists s0.
  destruct (fill_first l s0 [] R0) as (s & E & R & C1 & C2 & C3 & C4); cbn [length]; try lia. specialize (R Nl). cbn [app] in *. exists s.
  set (s1 := set_count s (q_count s + q_count s)). assert (R1 : RepF s1 [] l) by now apply count_rep.
  assert (Lp : (1 <= length l)%nat) by (destruct l; [congruence|simpl; lia]).
  assert (X : forall n, (bs + 1 <= n)%nat -> exists s' P' v, self_values n n 0 cur_buffer_pos 0 (fun s => index (cur_buffer s)) s1 = Ok s' /\ RepF s' [(0%nat, isort P')] [v] /\ same s1 s' /\ length P' = buffer_size s1
    /\ ((2 * length l = buffer_size s1 + 1)%nat -> P' ++ [v] = l ++ l)).
  { intros n Hn. apply (first_loop l n n 0 s1 l); auto; try lia.
    - intros _. simpl. now rewrite app_nil_r.
    - change (2 <= nbuffers s)%nat. lia.
    - change (q_count s + q_count s < 10 ^ 14). lia.
    - change (buffer_size s + 1 <= n + length l)%nat. lia. }
  assert (Y : forall n, q_self_merge n s = self_values n n 0 cur_buffer_pos 0 (fun s => index (cur_buffer s)) s1).
  { intros n. unfold q_self_merge. fold s1. pose proof (rf_cur _ _ _ R1) as Cu. cbn [length] in Cu. pose proof (rf_pos _ _ _ R1) as Po. rewrite Cu, Po. change (Z.of_nat 0) with 0.
    replace (length l =? 0)%nat with false by lia. cbn [Z.eqb orb andb]. 
    replace (self_buffers n n 0 s1) with (Ok s1) by (destruct n; cbn [self_buffers]; rewrite Cu; reflexivity). cbn [bind]. rewrite Cu. reflexivity. }
  assert (Mono : forall n m x k j s' b, (n <= m)%nat -> self_values n k j cur_buffer_pos b (fun s => index (cur_buffer s)) x = Ok s' -> self_values m k j cur_buffer_pos b (fun s => index (cur_buffer s)) x = Ok s').
  { clear. induction n as [|n IH]; intros m x k j s' b H Ex; destruct m as [|m]; try lia; cbn [self_values] in *; destruct (j <? cur_buffer_pos x)%nat; auto; try discriminate.
    destruct (buffer_of x b) as [c| | |]; cbn [bind] in *; try discriminate. destruct (get c j) as [[w|]| | |]; cbn [bind] in *; try discriminate.
    destruct (self_times k 0 (fun s => index (cur_buffer s)) w x) as [x1| | |]; cbn [bind] in *; try discriminate. apply (IH m); auto. lia. }
  assert (Kt : forall k k' w x x', (k <= k')%nat -> forall z, self_times k z (fun s => index (cur_buffer s)) w x = Ok x' -> self_times k' z (fun s => index (cur_buffer s)) w x = Ok x').
  { clear. induction k as [|k IH]; intros k' w x x' H z Ex; destruct k' as [|k']; try lia; cbn [self_times] in *; destruct (index (cur_buffer x)) as [i| | |]; cbn [bind] in *; try discriminate;
      destruct (get (buffer_weight x) i) as [u| | |]; cbn [bind] in *; try discriminate; destruct (z <? u); auto; try discriminate.
    destruct (addQuantile x w) as [y| | |]; cbn [bind] in *; try discriminate. apply IH; auto. lia. }
  assert (Kv : forall n k k' x j s' b, (k <= k')%nat -> self_values n k j cur_buffer_pos b (fun s => index (cur_buffer s)) x = Ok s' -> self_values n k' j cur_buffer_pos b (fun s => index (cur_buffer s)) x = Ok s').
  { clear - Kt. induction n as [|n IH]; intros k k' x j s' b H Ex; cbn [self_values] in *; destruct (j <? cur_buffer_pos x)%nat; auto; try discriminate.
    destruct (buffer_of x b) as [c| | |]; cbn [bind] in *; try discriminate. destruct (get c j) as [[w|]| | |]; cbn [bind] in *; try discriminate.
    destruct (self_times k 0 (fun s => index (cur_buffer s)) w x) as [x1| | |] eqn:E1; cbn [bind] in *; try discriminate. rewrite (Kt k k' w x x1 H 0 E1). cbn [bind]. apply (IH k k'); auto. }
  destruct (X (bs + 1)%nat ltac:(lia)) as (s' & P' & v & E2 & R2 & (S1 & S2 & S3 & S4 & S5) & L2 & X2). exists s', P', v.
  split; auto. split; auto. split. { intros n Hn. rewrite Y. apply (Mono (bs + 1)%nat); auto. apply (Kv _ (bs + 1)%nat); auto. }
  change (nbuffers s' = nbuffers s) in S1. change (buffer_size s' = buffer_size s) in S2. change (q_nbound s' = q_nbound s) in S3. change (q_count s' = q_count s + q_count s) in S4.
  change (buffer_size s1) with (buffer_size s) in *. rewrite C2, B2 in *. split; auto. split; auto. split; [congruence|]. split; auto. split; [congruence|]. split; [lia|]. auto.
Qed.

(** What the property asks for: after q.add(q) the object stands for every sample twice. *)
Definition doubled (s' : quantile) (l : list Z) : Prop :=
  forall q allow, (0 <= q <= 1)%Q -> allow = true \/ 2 * Z.of_nat (length l) <= q_nbound s' ->
  exists v s'', getQuantile (A := exact) s' (Fin q) allow = Ok (Some v, s'')
    /\ element_at (l ++ l) (query_rank (2 * Z.of_nat (length l)) q - 1) v.

(** It does so for as many samples as make half a buffer and half a sample ... *)
Theorem C97_partial : forall nbound lazy nb bs l,
  (2 <= nb)%nat -> (10 <= bs)%nat -> (nb <= bs)%nat -> Z.of_nat bs < 2 ^ 31 -> (2 * length l = bs + 1)%nat ->
  exists s0 s s', q_init nbound lazy nb bs = Ok s0 /\ add_all s0 l = Ok s /\ (forall n, (bs + 1 <= n)%nat -> q_self_merge n s = Ok s')
    /\ q_count s' = 2 * Z.of_nat (length l) /\ doubled s' l.
Proof.
  intros nbound lazy nb bs l H1 H2 H3 H4 Hl. destruct (first_buffer nbound lazy nb bs l H1 H2 H3 H4) as (s0 & s & s' & P' & v & E0 & E1 & E2 & R & L & N1 & N2 & N3 & N4 & X).
  { intros ->. simpl in Hl. lia. } { lia. }
  exists s0, s, s'. split; auto. split; auto. split; auto. split; auto. intros q allow Hq Ha.
  assert (Hc : (1 <= q_count s' < 10 ^ 14)) by (rewrite N4; clear - Hl H4 H2; lia).
  pose proof (query_any s' _ [v] R ltac:(discriminate) Hc q allow Hq ltac:(rewrite N4; exact Ha)) as Q.
  rewrite (total_retained s' _ _ R) in Q. unfold fcount in Q. rewrite N1, N2 in Q. replace (wsumL (weigh nb [(0%nat, isort P')])) with 1%nat in Q.
  2: { destruct nb; [lia|reflexivity]. }
  cbn [length] in Q. replace (q_count s' =? Z.of_nat (bs * 1 + 1)) with true in Q by lia. destruct Q as (w & s2 & G1 & G2). exists w, s2. split; auto.
  rewrite N4 in G2. destruct G2 as (t & T1 & T2 & T3). exists t. split; auto. rewrite <- T1, (weighted_retained s' _ _ R), blist_mass. rewrite <- (X Hl).
  apply Permutation_app_tail. cbn [weigh massL flat_map fst snd]. rewrite app_nil_r. replace (wt (nbuffers s') 0) with 1%nat by (rewrite N1; destruct nb; [lia|reflexivity]). rewrite stretch_1. symmetry. apply isort_perm.
Qed.
Print Assumptions C97_partial.

(** ... and for no other number of samples that fits into one buffer: the call
    returns, and every query after it aborts. *)
Theorem C97_refuted : forall nbound lazy nb bs l,
  (2 <= nb)%nat -> (10 <= bs)%nat -> (nb <= bs)%nat -> Z.of_nat bs < 2 ^ 31 -> l <> [] -> (length l <= bs)%nat -> (2 * length l <> bs + 1)%nat ->
  exists s0 s s', q_init nbound lazy nb bs = Ok s0 /\ add_all s0 l = Ok s /\ (forall n, (bs + 1 <= n)%nat -> q_self_merge n s = Ok s')
    /\ q_count s' = 2 * Z.of_nat (length l) /\ total_weight (retained s') = Z.of_nat (bs + 1)
    /\ forall q allow, (0 <= q <= 1)%Q -> getQuantile (A := exact) s' (Fin q) allow = Abort.
Proof.
  intros nbound lazy nb bs l H1 H2 H3 H4 Nl Ll Hl. destruct (first_buffer nbound lazy nb bs l H1 H2 H3 H4 Nl Ll) as (s0 & s & s' & P' & v & E0 & E1 & E2 & R & L & N1 & N2 & N3 & N4 & X).
  exists s0, s, s'. split; auto. split; auto. split; auto. split; auto.
  assert (Lp : (1 <= length l)%nat) by (destruct l; [congruence|simpl; lia]).
  assert (Hc : (1 <= q_count s' < 10 ^ 14)) by (rewrite N4; clear - Lp Ll H4; lia).
  assert (W : total_weight (retained s') = Z.of_nat (bs + 1)).
  { rewrite (total_retained s' _ _ R). unfold fcount. rewrite N1, N2. replace (wsumL (weigh nb [(0%nat, isort P')])) with 1%nat by (destruct nb; [lia|reflexivity]). cbn [length]. f_equal. lia. }
  split; auto. intros q allow Hq. destruct ((q_count s' <=? q_nbound s') || allow) eqn:Ha.
  - pose proof (query_any s' _ [v] R ltac:(discriminate) Hc q allow Hq) as Q. rewrite W in Q. replace (q_count s' =? Z.of_nat (bs + 1)) with false in Q by lia. apply Q.
    apply orb_true_iff in Ha. destruct Ha as [Ha|Ha]; [right; lia|left; auto].
  - unfold getQuantile. replace (q_count s' =? 0) with false by lia. rewrite Ha. reflexivity.
Qed.
Print Assumptions C97_refuted.

(** Any object with samples, whatever its buffers hold: if the call returns, then the
    count is doubled, and either the weights of what is retained add up to it or every
    query aborts. *)
Theorem C97_all_or_nothing : forall h s n s', legal h -> small h -> samples h <> [] -> 2 * Z.of_nat (length (samples h)) < 10 ^ 14 ->
  eval h = Ok s -> q_self_merge n s = Ok s' ->
  q_count s' = 2 * Z.of_nat (length (samples h)) /\
  (total_weight (retained s') = q_count s' \/ forall q allow, (0 <= q <= 1)%Q -> getQuantile (A := exact) s' (Fin q) allow = Abort).
Proof.
  intros h s n s' Lg Sm Nh Hn Es Em. destruct (eval_basic h Lg Sm) as (s1 & F & P & E & Ee & I & C & _). rewrite Es in Ee. injection Ee as <-.
  pose proof I as [R Cn K D Er]. assert (LX : (1 <= length (samples h))%nat) by (destruct (samples h); [congruence|simpl; lia]).
  destruct R as [[R N]|(_ & -> & ->)]; [|unfold fcount in Cn; simpl in Cn; lia].
  assert (NP : P <> []). { destruct N as [N| ->]; auto. intros ->. unfold fcount in Cn. simpl in Cn. lia. }
  unfold q_self_merge in Em. set (s1 := set_count s (q_count s + q_count s)) in *. assert (C1 : q_count s1 = 2 * Z.of_nat (length (samples h))) by (change (q_count s1) with (q_count s + q_count s); lia).
  assert (G1 : Good s1) by (exists F, P; split; auto; now apply count_rep).
  destruct ((cur_buffer s1 =? -1) || ((cur_buffer s1 =? 0) && (cur_buffer_pos s1 =? 0)%nat)); try discriminate.
  destruct (self_buffers n n 0 s1) as [s2| | |] eqn:E2; cbn [bind] in Em; try discriminate. destruct (good_buffers _ _ _ _ _ G1 ltac:(lia) E2) as [G2 C2].
  destruct (index (cur_buffer s2)) as [b| | |]; cbn [bind] in Em; try discriminate. destruct (good_values _ _ _ _ _ _ _ _ G2 ltac:(lia) Em) as [(F3 & P3 & R3 & N3) C3].
  assert (Cc : q_count s' = 2 * Z.of_nat (length (samples h))) by lia. split; auto.
  destruct (Z.eq_dec (total_weight (retained s')) (q_count s')) as [H|H]; [auto|right]. intros q allow Hq. destruct ((q_count s' <=? q_nbound s') || allow) eqn:Ha.
  - pose proof (query_any s' F3 P3 R3 N3 ltac:(lia) q allow Hq) as Q. replace (q_count s' =? total_weight (retained s')) with false in Q by lia. apply Q.
    apply orb_true_iff in Ha. destruct Ha as [Ha|Ha]; [right; lia|left; auto].
  - unfold getQuantile. replace (q_count s' =? 0) with false by lia. rewrite Ha. reflexivity.
Qed.
Print Assumptions C97_all_or_nothing.

(** An empty object: memcpy is called with overlapping objects. *)
Theorem C97_empty_refuted : forall nbound lazy nb bs s0 n, q_init nbound lazy nb bs = Ok s0 -> q_self_merge n s0 = UB.
Proof.
  intros nbound lazy nb bs s0 n E. unfold q_init in E. destruct (1 <? nb)%nat; cbn [invariant bind] in E; try discriminate. destruct (10 <=? bs)%nat; cbn [invariant bind] in E; try discriminate.
  injection E as <-. unfold q_self_merge. destruct lazy; reflexivity.
Qed.
Print Assumptions C97_empty_refuted.

(** Concrete cases: buffers of 11 cells with 6 samples; the constructor's own sizes for
    error 0.005 and 1000000 samples with 3; and an object with two full buffers. *)
Example C97_example_half : (2 * length [5; 1; 4; 2; 3; 9] = 11 + 1)%nat. Proof. reflexivity. Qed.
Example C97_example_three : exists s0 s, q_init 1000000 true 5 200 = Ok s0 /\ add_all s0 [5; 1; 4] = Ok s
  /\ match q_self_merge 300 s with Ok s' => q_count s' = 6 /\ total_weight (retained s') = 201 /\ getQuantile (A := exact) s' (Fin (1 # 2)) true = Abort | _ => False end.
Proof. eexists. eexists. split; [vm_compute; reflexivity|]. split; [vm_compute; reflexivity|]. vm_compute. repeat split. Qed.
Example C97_example_two_buffers : exists s0 s, q_init 1000 true 3 10 = Ok s0 /\ add_all s0 (map Z.of_nat (seq 0 15)) = Ok s
  /\ match q_self_merge 3000 s with Ok s' => q_count s' = 30 /\ total_weight (retained s') <> 30 | _ => False end.
Proof. eexists. eexists. split; [vm_compute; reflexivity|]. split; [vm_compute; reflexivity|]. vm_compute. split; [reflexivity|discriminate]. Qed.
