(** StatsQuantile: construction, reset and queries on represented states. *)
From Coq Require Import List Arith ZArith NArith Lia Bool Permutation Sorted ZifyBool ZifyNat ZifyN.
From Verif Require Import Common CommonFacts ListFacts PriorityQueue_Model PriorityQueue_Proofs Quantile_Model Quantile_Spec Quantile_Facts Quantile_Merge Quantile_Bin Quantile_Collapse Quantile_Proofs.
Import ListNotations.
Local Open Scope nat_scope.

Lemma touch_length c : forall j, length (touch j c) = length c.
Proof. induction c as [|x c IH]; intros; simpl; auto. Qed.

Lemma init_spec s : 2 <= nbuffers s -> 10 <= buffer_size s -> nbuffers s <= buffer_size s -> (Z.of_nat (buffer_size s) < 2 ^ 31)%Z ->
  length (all_buffers s) = nbuffers s -> length (collapse_pos s) = buffer_size s ->
  (forall i c, nth_error (all_buffers s) i = Some (Some c) -> length c = buffer_size s) ->
  Rep (init_buffers s) [] [] /\ same s (init_buffers s) /\ collapse_even_low (init_buffers s) = true.
Proof.
  intros H1 H2 H3 H4 H5 H6 H7. split; [|split; [repeat split|reflexivity]].
  assert (Sh : Shape (init_buffers s)).
  { split; unfold init_buffers; fields; auto; rewrite ?length_upd, ?repeat_length, ?map_length; auto.
    - intros i c E. rewrite nth_error_map in E. destruct (nth_error (all_buffers s) i) as [[c0|]|] eqn:E0; cbn in E; [|destruct (q_lazy s)|]; try discriminate.
      + injection E as <-. rewrite touch_length. eauto.
      + injection E as <-. now rewrite touch_length, repeat_length.
    - intros Lz i E. rewrite nth_error_map in E. rewrite Lz in E. destruct (nth_error (all_buffers s) i) as [[c0|]|] eqn:E0; cbn in E; discriminate. }
  destruct (q_lazy s) eqn:Lz.
  - right. split; [|auto]. split; auto. unfold init_buffers; fields. rewrite Lz. auto.
  - left. split; [|auto]. split; auto; unfold init_buffers; fields; rewrite ?Lz; cbn [length]; auto; try lia.
    + intros [|i] b E; discriminate. + intros [|i] a b E; discriminate.
    + destruct (get_lt (all_buffers s) 0) as (b & Eb & _); [lia|]. exists (match b with Some c => touch 0 c | None => touch 0 (repeat None (buffer_size s)) end).
      split; [|reflexivity]. rewrite nth_error_map, Eb. cbn. now destruct b.
    + rewrite nth_error_upd_eq; auto. rewrite repeat_length. lia.
    + rewrite nth_error_upd_eq by (rewrite repeat_length; lia). unfold plevel. cbn [length]. now replace (1 =? nbuffers s) with false by lia.
    + exists false. split; [|discriminate]. destruct (nbuffers s); [lia|reflexivity].
Qed.

Lemma Rep_shape s F P : Rep s F P -> Shape s.
Proof. intros [[[] _]|((Sh & _) & _)]; auto. Qed.

Lemma reset_spec s F P : Rep s F P -> Rep (q_reset s) [] [] /\ same (set_count s 0) (q_reset s) /\ collapse_even_low (q_reset s) = true.
Proof. intros R. apply Rep_shape in R. destruct R. apply init_spec; fields; auto. Qed.

Lemma qinit_spec nbound lazy nb bs : 2 <= nb -> 10 <= bs -> nb <= bs -> (Z.of_nat bs < 2 ^ 31)%Z ->
  exists s, q_init nbound lazy nb bs = Ok s /\ Rep s [] [] /\ nbuffers s = nb /\ buffer_size s = bs /\ q_nbound s = nbound /\ q_count s = 0%Z /\ collapse_even_low s = true.
Proof.
  intros A B C D. unfold q_init. replace (1 <? nb) with true by lia. replace (10 <=? bs) with true by lia. cbn [invariant bind].
  set (s0 := mk_q _ _ _ _ _ _ _ _ _ _ _ _ _). destruct (init_spec s0) as (R & (S1 & S2 & S3 & S4 & S5) & E); subst s0; fields; auto; rewrite ?repeat_length; auto.
  - intros i c E. apply nth_error_In in E. apply repeat_spec in E. discriminate.
  - eexists. split; [reflexivity|]. split; auto.
Qed.

(** ** The buffers of a state, with weights *)
Definition blist (nb : nat) (F : fulls) (P : list Z) : list (nat * list Z) := weigh nb F ++ [(1, P)].

Lemma for_each_app {S} (f : nat -> S -> res S) l1 l2 s : for_each f (l1 ++ l2) s = bind (for_each f l1 s) (for_each f l2).
Proof. revert s; induction l1 as [|i l1 IH]; intros; simpl; auto. destruct (f i s); simpl; auto. Qed.

Lemma weigh_nth' b G j x : nth_error G j = Some x -> nth_error (weigh b G) j = Some (wt (b - j) (fst x), snd x).
Proof. revert b j; induction G as [|y G IH]; intros b [|j] E; simpl in *; try discriminate. { injection E as <-. now rewrite Nat.sub_0_r. }
  rewrite (IH _ _ E). do 3 f_equal. lia. Qed.

Lemma blist_bufs_ok s F P : RepF s F P -> StronglySorted Z.le P -> bufs_ok s 0 (blist (nbuffers s) F P).
Proof.
  intros [Sh C Lt Ps Le Fu Mo (c & Eb & Ec) Wt Lv (so & Eso & Hso)] SP j b E. unfold blist in E. cbn [Nat.add].
  destruct (Nat.lt_ge_cases j (length F)) as [H|H].
  - rewrite nth_error_app1 in E by (rewrite weigh_length; lia). destruct b as [w vs]. destruct (weigh_nth _ _ _ _ _ E) as (x & Ex & -> & ->).
    destruct (Fu j x Ex) as (A1 & A2 & A3 & A4 & A5 & A6). unfold buf_ok. cbn [fst snd]. split; auto. split; [apply wt_pos'; lia|]. split; auto.
    exists (map Some (snd x)). split; auto. rewrite map_length. split; auto. apply firstn_all2. rewrite map_length. lia.
  - assert (j = length F). { apply nth_error_lt in E. rewrite app_length, weigh_length in E. simpl in E. lia. } subst j.
    rewrite nth_error_app2, weigh_length, Nat.sub_diag in E by (rewrite weigh_length; lia). injection E as <-. unfold buf_ok. cbn [fst snd].
    split; auto. split; [lia|]. split; auto. exists c. split; auto. split; auto. rewrite (sh_cells _ Sh _ _ Eb). lia.
Qed.

(** ** Sorting before a query *)
Definition query_body := fun i (s : quantile) =>
    let! cp := put (collapse_pos s) i O in
    let s := set_cpos s cp in
    let! so := get (buffer_sorted s) i in
    if so then Ok s else
    let! s :=
      (if (Z.of_nat i <? cur_buffer s)%Z then sort_buffer s i (buffer_size s)
       else
         let! s := sort_buffer s i (cur_buffer_pos s) in
         let! c := buffer_of s i in
         let! a := put (all_buffers s) i
                     (Some (firstn (cur_buffer_pos s) c ++ repeat (Some key_inf) (buffer_size s - cur_buffer_pos s))) in
         Ok (set_bufs s a)) in
    let! so := put (buffer_sorted s) i true in
    Ok (set_meta s (buffer_weight s) (buffer_level s) so).

Lemma query_sorted : forall n k s, k + n <= length (collapse_pos s) -> (forall i, k <= i < k + n -> nth_error (buffer_sorted s) i = Some true) ->
  exists cp, for_each query_body (seq k n) s = Ok (set_cpos s cp) /\ length cp = length (collapse_pos s).
Proof.
  induction n as [|n IH]; intros k s L H.
  - exists (collapse_pos s). split; [now destruct s|auto].
  - cbn [seq]. rewrite for_each_cons. unfold query_body at 1. rewrite put_ok by lia. cbn [bind]. fields. rewrite (get_nth _ _ true) by (apply H; lia). cbn [bind].
    destruct (IH (S k) (set_cpos s (upd (collapse_pos s) k 0))) as (cp & E & L1); fields. { rewrite length_upd. lia. } { intros i Hi. apply H. lia. }
    exists cp. split; [exact E|]. revert L1. fields. now rewrite length_upd.
Qed.

Lemma Shape_cpos s cp : Shape s -> length cp = buffer_size s -> Shape (set_cpos s cp).
Proof. intros []; split; fields; auto. Qed.
Lemma RepF_cpos s F P cp : RepF s F P -> length cp = buffer_size s -> RepF (set_cpos s cp) F P.
Proof. intros [Sh ? ? ? ? ? ? ? ? ? ?] L. split; fields; auto. now apply Shape_cpos. Qed.

Lemma sort_for_query_spec s F P : RepF s F P ->
  exists s', sort_for_query s = Ok s' /\ RepF s' F (isort P) /\ same s s' /\ collapse_even_low s' = collapse_even_low s.
Proof.
  intros R. pose proof R as [Sh C Lt Ps Le Fu Mo (c & Eb & Ec) Wt Lv (so & Eso & Hso)]. unfold sort_for_query. fold query_body. rewrite C.
  replace (Z.to_nat (Z.of_nat (length F) + 1)) with (S (length F)) by lia. rewrite seq_S, for_each_app. cbn [Nat.add].
  assert (HLE := sh_le _ Sh). assert (HCP := sh_cp _ Sh).
  destruct (query_sorted (length F) 0 s) as (cp & E & Lcp). { lia. }
  { intros i Hi. destruct (nth_error F i) as [b|] eqn:EF; [|apply nth_error_None in EF; lia]. apply (Fu i b EF). }
  rewrite E. cbn [bind for_each]. unfold query_body. fields. rewrite put_ok by lia. cbn [bind]. rewrite (get_nth _ _ _ Eso). cbn [bind].
  assert (Lcp2 : length (upd cp (length F) 0) = buffer_size s) by (rewrite length_upd; lia).
  destruct so.
  - eexists. split; [reflexivity|]. split; [|split; [repeat split|reflexivity]]. rewrite isort_sorted_id by auto. apply (RepF_cpos s F P (upd cp (length F) 0)); auto.
  - rewrite C. replace (Z.of_nat (length F) <? Z.of_nat (length F))%Z with false by lia. unfold sort_buffer, buffer_of. fields. rewrite (get_nth _ _ _ Eb). cbn [bind].
    assert (Lc := sh_cells _ Sh _ _ Eb). rewrite Ps. unfold sort_prefix. replace (length P <=? length c) with true by lia. rewrite Ec, read_cells_some. cbn [bind].
    assert (HB := sh_bufs _ Sh). rewrite put_ok by lia. cbn [bind]. fields.
    rewrite (get_nth _ _ (Some (map Some (isort P) ++ skipn (length P) c))) by (apply nth_error_upd_eq; lia). cbn [bind].
    rewrite Ps. rewrite put_ok by (rewrite length_upd; lia). cbn [bind]. fields. assert (HS := sh_sor _ Sh). rewrite put_ok by lia. cbn [bind].
    eexists. split; [reflexivity|]. split; [|split; [repeat split|reflexivity]].
    set (c' := firstn (length P) (map Some (isort P) ++ skipn (length P) c) ++ repeat (Some key_inf) (buffer_size s - length P)).
    assert (Fc : firstn (length P) (map Some (isort P) ++ skipn (length P) c) = map Some (isort P)).
    { rewrite firstn_app, map_length, isort_length, Nat.sub_diag. simpl. rewrite app_nil_r. apply firstn_all2. rewrite map_length, isort_length. lia. }
    assert (Lc' : length c' = buffer_size s). { unfold c'. rewrite Fc, app_length, map_length, isort_length, repeat_length. lia. }
    split; fields; rewrite ?isort_length; auto.
    + destruct Sh. split; fields; auto; rewrite ?length_upd; auto.
      * intros i c1 E1. destruct (Nat.eq_dec i (length F)) as [->|N].
        -- rewrite nth_error_upd_eq in E1 by (rewrite length_upd; lia). apply (f_equal (fun o => match o with Some (Some c) => length c | _ => 0 end)) in E1. cbn beta iota in E1. rewrite <- E1. exact Lc'.
        -- rewrite !nth_error_upd_neq in E1 by lia. eauto.
      * intros Lz i E1. destruct (Nat.eq_dec i (length F)) as [->|N].
        -- rewrite nth_error_upd_eq in E1 by (rewrite length_upd; lia). discriminate.
        -- rewrite !nth_error_upd_neq in E1 by lia. now apply (sh_alloc Lz i).
    + intros i b Ei. assert (i < length F) by (now apply nth_error_lt in Ei). destruct (Fu i b Ei) as (A1 & A2 & A3 & A4 & A5 & A6).
      unfold full_ok; fields. rewrite !nth_error_upd_neq by lia. repeat (split; auto).
    + exists c'. split. { apply nth_error_upd_eq. rewrite length_upd. lia. } unfold c'. rewrite Fc. rewrite firstn_app, map_length, isort_length, Nat.sub_diag. simpl. rewrite app_nil_r.
      apply firstn_all2. rewrite map_length, isort_length. lia.
    + exists true. split. { apply nth_error_upd_eq. lia. } intros _. apply isort_sorted.
Qed.

(** ** Both searches *)
Definition fcount (nb bs : nat) (F : fulls) (P : list Z) : nat := bs * wsumL (weigh nb F) + length P.

Lemma full_lengths s F P b : RepF s F P -> In b (weigh (nbuffers s) F) -> length (snd b) = buffer_size s.
Proof. intros R H. apply In_nth_error in H. destruct H as (j & E). destruct b as [w vs]. destruct (weigh_nth _ _ _ _ _ E) as (x & Ex & _ & ->). destruct (rf_full _ _ _ R j x Ex) as (_ & A & _). exact A. Qed.

Lemma massL_app L1 L2 : massL (L1 ++ L2) = massL L1 ++ massL L2.
Proof. apply flat_map_app. Qed.
Lemma wsumL_app L1 L2 : wsumL (L1 ++ L2) = wsumL L1 + wsumL L2.
Proof. induction L1; simpl; auto. unfold wsumL in *. simpl. lia. Qed.
Lemma blist_mass nb F P : massL (blist nb F P) = massL (weigh nb F) ++ P.
Proof. unfold blist. rewrite massL_app. unfold massL at 2. cbn [flat_map fst snd]. now rewrite app_nil_r, stretch_1. Qed.
Lemma blist_mass_length s F P : RepF s F P -> length (massL (blist (nbuffers s) F P)) = fcount (nbuffers s) (buffer_size s) F P.
Proof. intros R. rewrite blist_mass, app_length, (massL_length _ (buffer_size s)); [reflexivity|]. intros b Hb. now apply (full_lengths s F P). Qed.
Lemma wcnt_mass p B : wcnt p B = Z.of_nat (cnt p (massL B)).
Proof. induction B as [|b B IH]; [reflexivity|]. rewrite wcnt_cons, IH. cbn [massL flat_map]. rewrite cnt_app, cnt_stretch. fold (massL B). lia. Qed.
Lemma wtot_mass B : wtot B = Z.of_nat (length (massL B)).
Proof. induction B as [|b B IH]; [reflexivity|]. cbn [wtot fold_right massL flat_map]. fold (wtot B). rewrite IH, app_length, stretch_length. fold (massL B). lia. Qed.

Lemma count_loop s bs : forall F k acc, (forall i b, nth_error F i = Some b -> nth_error (buffer_weight s) (k + i) = Some (Z.of_nat (wt (nbuffers s - (k + i)) (fst b)))) ->
  for_each (fun i n => let! w := get (buffer_weight s) i in Ok (n + w * Z.of_nat bs)%Z) (seq k (length F)) acc
  = Ok (acc + Z.of_nat (bs * wsumL (weigh (nbuffers s - k) F)))%Z.
Proof.
  induction F as [|x F IH]; intros k acc H.
  - cbn. f_equal. lia.
  - cbn [length seq]. rewrite for_each_cons. specialize (H 0 x eq_refl) as H0. rewrite Nat.add_0_r in H0. rewrite (get_nth _ _ _ H0). cbn [bind].
    rewrite IH. 2: { intros i b E. specialize (H (S i) b E). now rewrite Nat.add_succ_r in H. }
    f_equal. cbn [weigh wsumL fold_right fst snd]. replace (nbuffers s - S k) with (nbuffers s - k - 1) by lia. unfold wsumL. lia.
Qed.

Lemma rooms_bound plo phi B bs : (forall b, In b B -> length (snd b) <= bs) -> rooms plo phi B <= length B * bs.
Proof. induction B as [|b B IH]; intros H; [simpl; lia|]. cbn [rooms fold_right length]. assert (rooms plo phi B <= length B * bs) by (apply IH; intros; apply H; now right).
  pose proof (H b (or_introl eq_refl)). pose proof (cnt_le_length phi (snd b)). unfold rooms in *. simpl. lia. Qed.

Theorem bin_search_spec s F P t : RepF s F P -> StronglySorted Z.le P -> P <> [] ->
  q_count s = Z.of_nat (fcount (nbuffers s) (buffer_size s) F P) -> (0 <= t < q_count s)%Z ->
  exists v, getQuantileByBinSearchIndex s t = Ok v /\ nth_error (isort (massL (blist (nbuffers s) F P))) (Z.to_nat t) = Some v.
Proof.
  intros R SP NP Cnt Ht. pose proof R as [Sh C Lt Ps Le Fu Mo (c & Eb & Ec) Wt Lv (so & Eso & Hso)].
  unfold getQuantileByBinSearchIndex. rewrite C, index_nat. cbn [bind]. rewrite Ps. assert (LP : 0 < length P) by (destruct P; simpl; [congruence|lia]).
  replace (0 <? length P) with true by lia. rewrite put_ok by (rewrite repeat_length; lia). cbn [bind].
  set (B := blist (nbuffers s) F P) in *.
  assert (El : upd (repeat (mk_bs 0 (buffer_size s) (buffer_size s)) (length F + 1)) (length F) (mk_bs 0 (length P) (length P)) = map (st (fun _ => false) (fun _ => true)) B).
  { unfold B, blist. rewrite map_app. rewrite repeat_app. cbn [repeat map]. replace (length F) with (length (repeat (mk_bs 0 (buffer_size s) (buffer_size s)) (length F))) at 2 by apply repeat_length.
    rewrite upd_app_mid. unfold st at 2. cbn [snd]. rewrite cnt_false, cnt_true. f_equal.
    assert (A : forall b, In b (weigh (nbuffers s) F) -> st (fun _ => false) (fun _ => true) b = mk_bs 0 (buffer_size s) (buffer_size s)).
    { intros b Hb. unfold st. rewrite cnt_false, cnt_true. now rewrite (full_lengths s F P b R Hb). }
    rewrite (map_ext_in _ (fun _ => mk_bs 0 (buffer_size s) (buffer_size s)) _ A).
    rewrite <- (weigh_length (nbuffers s) F). clear. induction (weigh (nbuffers s) F); simpl; congruence. }
  rewrite El. rewrite (count_loop s (buffer_size s) F 0 0%Z). 2: { intros i b E. apply (Fu i b E). }
  cbn [bind]. rewrite Nat.sub_0_r.
  assert (Et : (0 + Z.of_nat (buffer_size s * wsumL (weigh (nbuffers s) F)) + Z.of_nat (length P))%Z = wtot B).
  { rewrite wtot_mass. unfold B. rewrite (blist_mass_length s F P R). unfold fcount. lia. }
  rewrite Et. replace (wtot B =? q_count s)%Z with true. 2: { rewrite wtot_mass. unfold B. rewrite (blist_mass_length s F P R). lia. }
  cbn [invariant bind].
  assert (BO : bufs_ok s 0 B) by (now apply blist_bufs_ok).
  assert (Lm := blist_mass_length s F P R). fold B in Lm.
  destruct (bin_loop_spec s B t BO (S (nbuffers s * buffer_size s)) (fun _ => false) (fun _ => true)) as (v & Ev & Hv & _).
  { intros x y H; discriminate. } { intros x y; auto. } { discriminate. }
  { rewrite !wcnt_mass, cnt_false, cnt_true, Lm. lia. }
  { pose proof (rooms_bound (fun _ => false) (fun _ => true) B (buffer_size s)) as RB.
    assert (length B = S (length F)) by (unfold B, blist; rewrite app_length, weigh_length; simpl; lia).
    assert (rooms (fun _ => false) (fun _ => true) B <= length B * buffer_size s).
    { apply RB. intros b Hb. unfold B, blist in Hb. apply in_app_or in Hb. destruct Hb as [Hb|[<-|[]]]; [rewrite (full_lengths s F P b R Hb); lia|simpl; lia]. } nia. }
  exists v. split; auto. rewrite !wcnt_mass in Hv. apply nth_by_count; [apply isort_sorted|].
  rewrite !(cnt_perm _ _ _ (isort_perm (massL B))). lia.
Qed.

(** getQuantileByIndex *)
Lemma zero_loop : forall n k (cp : list nat), k + n <= length cp ->
  exists cp', for_each (fun i cp => put cp i 0) (seq k n) cp = Ok cp' /\ length cp' = length cp
    /\ (forall i, k <= i < k + n -> nth_error cp' i = Some 0) /\ (forall i, i < k -> nth_error cp' i = nth_error cp i).
Proof.
  induction n as [|n IH]; intros k cp H. { exists cp. repeat split; auto. intros; lia. }
  cbn [seq]. rewrite for_each_cons, put_ok by lia. cbn [bind]. destruct (IH (S k) (upd cp k 0)) as (cp' & E & L & A & B); [rewrite length_upd; lia|].
  exists cp'. rewrite length_upd in L. split; auto. split; auto. split.
  - intros i Hi. destruct (Nat.eq_dec i k) as [->|]; [|apply A; lia]. rewrite B by lia. apply nth_error_upd_eq. lia.
  - intros i Hi. rewrite B by lia. apply nth_error_upd_neq. lia.
Qed.

Theorem by_index_search_spec s F P t : RepF s F P -> StronglySorted Z.le P -> P <> [] ->
  (0 <= t < Z.of_nat (fcount (nbuffers s) (buffer_size s) F P))%Z ->
  exists v, getQuantileByIndex s t = Ok (Some v) /\ nth_error (isort (massL (blist (nbuffers s) F P))) (Z.to_nat t) = Some v.
Proof.
  intros R SP NP Ht. pose proof R as [Sh C Lt Ps Le Fu Mo (c & Eb & Ec) Wt Lv (so & Eso & Hso)].
  assert (LP : 0 < length P) by (destruct P; simpl; [congruence|lia]).
  assert (HLE := sh_le _ Sh). assert (HCP := sh_cp _ Sh). assert (HBS := sh_bs _ Sh). assert (HBIG := sh_big _ Sh).
  set (B := blist (nbuffers s) F P) in *. assert (BO : bufs_ok s 0 B) by (now apply blist_bufs_ok).
  assert (NE : forall b, In b B -> snd b <> []).
  { intros b Hb. unfold B, blist in Hb. apply in_app_or in Hb. destruct Hb as [Hb|[<-|[]]]; auto. pose proof (full_lengths s F P b R Hb). destruct (snd b); simpl in *; [lia|congruence]. }
  assert (LB : length B = S (length F)) by (unfold B, blist; rewrite app_length, weigh_length; simpl; lia).
  unfold getQuantileByIndex. rewrite C, Nat2Z.id.
  destruct (zero_loop (length F) 0 (collapse_pos s)) as (cp & E1 & L1 & Z1 & _); [lia|]. rewrite E1. cbn [bind].
  (* values at position 0 *)
  assert (CV : forall cp j b, nth_error B j = Some b -> nth_error cp j = Some 0 -> collapseVal s cp j = Ok (hd 0%Z (snd b))).
  { intros cp0 j b Ej E0. destruct (BO j b Ej) as (S1 & W1 & W2 & c1 & Ec1 & Lc1 & Fc1). cbn [Nat.add] in *. unfold collapseVal, buffer_of. rewrite (get_nth _ _ _ Ec1). cbn [bind].
    rewrite (get_nth _ _ _ E0). cbn [bind]. assert (N := NE b ltac:(now apply nth_error_In in Ej)). destruct (snd b) as [|x r]; [congruence|]. destruct c1; simpl in Fc1; [discriminate|].
    injection Fc1 as -> _. reflexivity. }
  assert (BF : forall j, j < length F -> exists b, nth_error B j = Some b).
  { intros j Hj. destruct (nth_error B j) as [b|] eqn:E; [eauto|]. apply nth_error_None in E. lia. }
  assert (BL : nth_error B (length F) = Some (1, P)). { unfold B, blist. rewrite nth_error_app2, weigh_length, Nat.sub_diag by (rewrite weigh_length; lia). reflexivity. }
  destruct (push_all_spec s cp (seq 0 (length F)) [] (pq_new pair0 (N.of_nat (nbuffers s)))) as (pq & E3 & R3).
  { apply RQ_new. lia. } { rewrite seq_length. simpl. lia. }
  { intros i Hi. apply in_seq in Hi. destruct (BF i) as (b & Ei); [lia|]. eexists. apply (CV cp i b Ei). apply Z1. lia. }
  rewrite app_nil_r in R3. rewrite E3. cbn [bind]. rewrite Ps. replace (0 <? length P) with true by lia. rewrite index_nat. cbn [bind].
  rewrite put_ok by lia. cbn [bind]. set (cp2 := upd cp (length F) 0).
  assert (Z2 : forall i, i < S (length F) -> nth_error cp2 i = Some 0).
  { intros i Hi. unfold cp2. destruct (Nat.eq_dec i (length F)) as [->|]; [apply nth_error_upd_eq; lia|]. rewrite nth_error_upd_neq by lia. apply Z1. lia. }
  rewrite (CV cp2 (length F) (1, P) BL) by (apply Z2; lia). cbn [bind snd].
  destruct (push_rep pairCmp pairCmp pair0 pc_total pc_trans pc_id pc_ge pq _ (hd 0%Z P, length F) R3) as (pq2 & E4 & R4).
  { rewrite map_length, seq_length. lia. }
  rewrite E4. cbn [bind].
  set (Rw := walk_from 0 B).
  assert (Hh : Permutation ((hd 0%Z P, length F) :: map (fun i => (match collapseVal s cp i with Ok v => v | _ => 0%Z end, i)) (seq 0 (length F))) (heads Rw)).
  { replace (heads Rw) with (map (fun i => (match nth_error B i with Some b => hd 0%Z (snd b) | None => 0%Z end, i)) (seq 0 (length B))).
    - rewrite LB, seq_S, map_app. cbn [map Nat.add]. rewrite BL. cbn [snd]. rewrite <- Permutation_cons_append. constructor.
      erewrite map_ext_in; [reflexivity|]. intros i Hi. apply in_seq in Hi. destruct (BF i) as (b & Ei); [lia|]. rewrite Ei, (CV cp i b Ei) by (apply Z1; lia). reflexivity.
    - unfold Rw. clear. assert (H : forall k, map (fun i => (match nth_error B (i - k) with Some b => hd 0%Z (snd b) | None => 0%Z end, i)) (seq k (length B)) = heads (walk_from k B)).
      { induction B as [|b B IH]; intros k; [reflexivity|]. cbn [length seq map walk_from heads]. rewrite Nat.sub_diag. cbn [nth_error]. unfold wl, wid. cbn [fst snd]. f_equal.
        rewrite <- IH. apply map_ext_in. intros i Hi. apply in_seq in Hi. now replace (i - k) with (S (i - S k)) by lia. }
      rewrite <- H. apply map_ext. intros i. now rewrite Nat.sub_0_r. }
  apply (RQ_perm _ _ _ R4) in Hh.
  assert (WO : walk_ok s cp2 (fun i => if Z.ltb (Z.of_nat i) (cur_buffer s) then buffer_size s else cur_buffer_pos s) Rw).
  { split. { unfold Rw. rewrite walk_from_ids. apply seq_NoDup. }
    apply Forall_forall. intros e He. destruct (walk_from_in _ _ _ He) as (j & b & Ej & ->). cbn [Nat.add]. unfold entry_ok, wl, wid, wwt. cbn [fst snd].
    assert (Hj : j < S (length F)) by (apply nth_error_lt in Ej; lia).
    destruct (BO j b Ej) as (S1 & W1 & W2 & c1 & Ec1 & Lc1 & Fc1). cbn [Nat.add] in *. split; [apply NE; now apply nth_error_In in Ej|]. split; auto. split; auto. split; auto.
    assert (Lb : length (snd b) = if Z.ltb (Z.of_nat j) (cur_buffer s) then buffer_size s else cur_buffer_pos s).
    { rewrite C, Ps. destruct (Z.ltb (Z.of_nat j) (Z.of_nat (length F))) eqn:Q.
      - apply (full_lengths s F P b R). unfold B, blist in Ej. rewrite nth_error_app1 in Ej by (rewrite weigh_length; lia). now apply nth_error_In in Ej.
      - replace j with (length F) in Ej by lia. rewrite BL in Ej. now injection Ej as <-. }
    exists (snd b), c1, 0. split; auto. split. { now rewrite <- Lb. } split; auto. }
  assert (Lm := blist_mass_length s F P R). fold B in Lm.
  assert (M : mass Rw = massL B) by apply walk_from_mass.
  rewrite (by_index_spec s _ ltac:(reflexivity) (nbuffers s * buffer_size s) Rw pq2 cp2 t 0%Z (Z.to_nat t)).
  - eexists. split; [reflexivity|]. rewrite M. apply nth_error_nth'. rewrite isort_length. lia.
  - exact WO.
  - exact Hh.
  - unfold Rw. rewrite walk_from_elems. assert (A : fold_right (fun b n => length (snd b) + n) 0 B <= length B * buffer_size s).
    { assert (A : forall b, In b B -> length (snd b) <= buffer_size s). { intros b Hb. unfold B, blist in Hb. apply in_app_or in Hb. destruct Hb as [Hb|[<-|[]]]; [rewrite (full_lengths s F P b R Hb); lia|simpl; lia]. }
      clear - A. induction B as [|b B IH]; [simpl; lia|]. cbn [fold_right length]. assert (fold_right (fun b n => length (snd b) + n) 0 B <= length B * buffer_size s) by (apply IH; intros; apply A; now right).
      specialize (A b (or_introl eq_refl)). simpl. lia. }
    nia.
  - lia.
  - rewrite M, Lm. lia.
Qed.

(** ** What the specification reads off the arrays *)
Lemma cell_values_some l : cell_values (map Some l) = l.
Proof. induction l; simpl; auto. unfold cell_values in *. now rewrite IHl. Qed.

Lemma weighted_app r1 r2 : weighted (r1 ++ r2) = weighted r1 ++ weighted r2.
Proof. apply flat_map_app. Qed.
Lemma weighted_buffer w l : weighted (map (fun v => (v, Z.of_nat w)) l) = stretch w l.
Proof. induction l as [|x l IH]; auto. unfold weighted in *. cbn [map flat_map fst snd]. now rewrite IH, Nat2Z.id. Qed.

Lemma retained_spec s F P : RepF s F P ->
  retained s = flat_map (fun b => map (fun v => (v, Z.of_nat (fst b))) (snd b)) (blist (nbuffers s) F P).
Proof.
  intros R. pose proof R as [Sh C Lt Ps Le Fu Mo (c & Eb & Ec) Wt Lv (so & Eso & Hso)].
  unfold retained, buffers_in_use. rewrite C. replace (Z.to_nat (Z.of_nat (length F) + 1)) with (S (length F)) by lia.
  rewrite seq_S. unfold blist. rewrite !flat_map_app. cbn [Nat.add flat_map]. rewrite !app_nil_r. f_equal.
  - assert (H : forall G k, (forall i b, nth_error G i = Some b -> full_ok s (k + i) b) -> k + length G <= length F ->
      flat_map (fun i => map (fun v => (v, nth i (buffer_weight s) 0%Z)) (contents s i)) (seq k (length G))
      = flat_map (fun b => map (fun v => (v, Z.of_nat (fst b))) (snd b)) (weigh (nbuffers s - k) G)).
    { induction G as [|x G IH]; intros k H L; [reflexivity|]. cbn [length seq flat_map weigh]. simpl in L. f_equal.
      - destruct (H 0 x eq_refl) as (A1 & A2 & A3 & A4 & A5 & A6). rewrite Nat.add_0_r in *. unfold contents, used. rewrite A1, C.
        replace (Z.of_nat k <? Z.of_nat (length F))%Z with true by lia. rewrite firstn_all2 by (rewrite map_length; lia). rewrite cell_values_some.
        now rewrite (nth_error_nth _ _ _ A4).
      - rewrite IH; [do 2 f_equal; lia| |lia]. intros i b E. specialize (H (S i) b E). now rewrite Nat.add_succ_r in H. }
    rewrite (H F 0); [now rewrite Nat.sub_0_r| |lia]. intros i b E. now apply Fu.
  - cbn [fst snd]. unfold contents, used. rewrite Eb, C, Ps. replace (Z.of_nat (length F) <? Z.of_nat (length F))%Z with false by lia. rewrite Ec, cell_values_some.
    now rewrite (nth_error_nth _ _ _ Wt).
Qed.

Lemma weighted_retained s F P : RepF s F P -> weighted (retained s) = massL (blist (nbuffers s) F P).
Proof.
  intros R. rewrite (retained_spec s F P R). generalize (blist (nbuffers s) F P). induction l as [|b l IH]; [reflexivity|].
  cbn [flat_map massL]. rewrite weighted_app, weighted_buffer, IH. reflexivity.
Qed.
Lemma total_weight_app r1 r2 : total_weight (r1 ++ r2) = (total_weight r1 + total_weight r2)%Z.
Proof. unfold total_weight. rewrite map_app. induction (map snd r1); simpl; auto. lia. Qed.
Lemma total_retained s F P : RepF s F P -> total_weight (retained s) = Z.of_nat (fcount (nbuffers s) (buffer_size s) F P).
Proof.
  intros R. rewrite <- (blist_mass_length s F P R), (retained_spec s F P R). generalize (blist (nbuffers s) F P). induction l as [|b l IH]; [reflexivity|].
  cbn [flat_map massL]. rewrite total_weight_app, IH, app_length, stretch_length. fold (massL l).
  assert (total_weight (map (fun v : Z => (v, Z.of_nat (fst b))) (snd b)) = Z.of_nat (fst b * length (snd b))).
  { induction (snd b) as [|x r IHr]; [cbn; lia|]. unfold total_weight in *. cbn [map fold_right snd length]. rewrite IHr. lia. }
  lia.
Qed.
Lemma retained_values s F P x : RepF s F P -> (In x (map fst (retained s)) <-> In x (flat_map snd (blist (nbuffers s) F P))).
Proof.
  intros R. rewrite (retained_spec s F P R). generalize (blist (nbuffers s) F P). induction l as [|b l IH]; [reflexivity|].
  cbn [flat_map]. rewrite map_app, !in_app_iff, IH, map_map. cbn. now rewrite map_id.
Qed.
Lemma retained_empty s : RepL s -> retained s = [].
Proof. intros (_ & C & _). unfold retained, buffers_in_use. now rewrite C. Qed.
