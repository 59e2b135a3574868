(** collapse() on full buffers. *)
From Coq Require Import List Arith ZArith NArith Lia Bool Permutation Sorted ZifyBool ZifyNat ZifyN.
From Verif Require Import Common CommonFacts ListFacts PriorityQueue_Model PriorityQueue_Proofs Quantile_Model Quantile_Facts Quantile_Merge Quantile_Bin.
Import ListNotations.
Local Open Scope nat_scope.

Lemma for_each_cons {S} (f : nat -> S -> res S) i l s : for_each f (i :: l) s = bind (f i s) (fun s' => for_each f l s').
Proof. reflexivity. Qed.

Lemma find_first_spec lev l : forall i, nth_error lev i = Some l ->
  exists f, find_first lev i = Ok f /\ f <= i /\ (forall j, f <= j <= i -> nth_error lev j = Some l)
    /\ (f = 0 \/ exists l', nth_error lev (f - 1) = Some l' /\ l' <> l).
Proof.
  induction i as [|i IH]; intros E.
  - exists 0. repeat split; auto. intros j Hj. replace j with 0 by lia. exact E.
  - cbn [find_first]. assert (Hi : i < length lev) by (apply nth_error_lt in E; lia).
    destruct (get_lt lev i Hi) as (a & Ea & Ga). rewrite Ga. cbn [bind]. rewrite (get_nth _ _ _ E). cbn [bind].
    destruct (Z.eqb a l) eqn:C; cbn [negb].
    + assert (a = l) by lia. subst a. destruct (IH Ea) as (f & A1 & A2 & A3 & A4). exists f. split; auto. split; [lia|]. split; auto.
      intros j Hj. destruct (Nat.eq_dec j (S i)) as [->|]; auto. apply A3. lia.
    + exists (S i). split; auto. split; auto. split. { intros j Hj. replace j with (S i) by lia. exact E. }
      right. exists a. replace (S i - 1) with i by lia. split; auto. lia.
Qed.

(** A full buffer: weight, values. [first + j] is buffer j of the list. *)
Definition stored (bufs : list (option cells)) (wts : list Z) (first : nat) (L : list (nat * list Z)) : Prop :=
  forall j w vs, nth_error L j = Some (w, vs) ->
    nth_error bufs (first + j) = Some (Some (map Some vs)) /\ nth_error wts (first + j) = Some (Z.of_nat w).
Definition wsumL (L : list (nat * list Z)) : nat := fold_right (fun b n => fst b + n) 0 L.

Lemma stored_cons bufs wts first b L : stored bufs wts first (b :: L) ->
  (nth_error bufs first = Some (Some (map Some (snd b))) /\ nth_error wts first = Some (Z.of_nat (fst b))) /\ stored bufs wts (S first) L.
Proof.
  intros H. split. { specialize (H 0 (fst b) (snd b)). rewrite Nat.add_0_r in H. apply H. now destruct b. }
  intros j w vs E. specialize (H (S j) w vs E). now rewrite Nat.add_succ_r in H.
Qed.

Lemma sort_prefix_full vs n : length vs = n -> sort_prefix n (map Some vs) = Ok (map Some (isort vs)).
Proof.
  intros L. unfold sort_prefix. rewrite map_length, L. replace (n <=? n) with true by lia.
  rewrite firstn_all2 by (rewrite map_length; lia). rewrite read_cells_some. cbn [bind]. rewrite skipn_all2 by (rewrite map_length; lia). now rewrite app_nil_r.
Qed.

(** collapseSortBuffers *)
Definition sort_body := fun i (p : quantile * Z) =>
    let (s, total) := p in
    let! w := get (buffer_weight s) i in
    let! _ := invariant (0 <? w)%Z in
    let! cp := put (collapse_pos s) i O in
    let s := set_cpos s cp in
    let! so := get (buffer_sorted s) i in
    if so then Ok (s, (total + w)%Z) else
    let! _ := invariant ((i =? nbuffers s - 1)%nat || (w =? 1))%Z in
    let! s := sort_buffer s i (buffer_size s) in
    let! so := put (buffer_sorted s) i true in
    Ok (set_meta s (buffer_weight s) (buffer_level s) so, (total + w)%Z).
Lemma collapseSort_unfold s first : collapseSortBuffers s first = for_each sort_body (seq first (nbuffers s - first)) (s, 0%Z).
Proof. reflexivity. Qed.

Lemma sort_buffers_spec : forall L first s acc,
  stored (all_buffers s) (buffer_weight s) first L ->
  (forall j w vs, nth_error L j = Some (w, vs) -> length vs = buffer_size s /\ 0 < w /\ first + j < length (collapse_pos s)
     /\ exists so, nth_error (buffer_sorted s) (first + j) = Some so /\ (so = true -> StronglySorted Z.le vs)
         /\ (so = false -> first + j = nbuffers s - 1 \/ w = 1)) ->
  exists bufs' sor' cp',
    for_each sort_body (seq first (length L)) (s, acc)
    = Ok (mk_q (q_nbound s) (buffer_size s) (nbuffers s) bufs' (buffer_weight s) (buffer_level s) (cur_buffer s) (cur_buffer_pos s)
            sor' cp' (collapse_even_low s) (q_lazy s) (q_count s), (acc + Z.of_nat (wsumL L))%Z)
    /\ length bufs' = length (all_buffers s) /\ length sor' = length (buffer_sorted s) /\ length cp' = length (collapse_pos s)
    /\ stored bufs' (buffer_weight s) first (map (fun b => (fst b, isort (snd b))) L)
    /\ (forall j, first <= j < first + length L -> nth_error cp' j = Some 0)
    /\ (forall i, i < first \/ first + length L <= i -> nth_error bufs' i = nth_error (all_buffers s) i /\ nth_error sor' i = nth_error (buffer_sorted s) i).
Proof.
  induction L as [|b L IH]; intros first s acc ST HL.
  - exists (all_buffers s), (buffer_sorted s), (collapse_pos s). cbn [length seq for_each wsumL fold_right]. rewrite Z.add_0_r.
    split. { now destruct s. } split; auto. split; auto. split; auto. split. { intros j w vs E. destruct j; discriminate. }
    split; [intros; lia|auto].
  - apply stored_cons in ST. destruct ST as [[Eb Ew] ST]. destruct (HL 0 (fst b) (snd b)) as (Lv & Wp & Cp & so & Es & So1 & So2); [now destruct b|].
    rewrite Nat.add_0_r in *. cbn [length seq]. rewrite for_each_cons. unfold sort_body at 1.
    rewrite (get_nth _ _ _ Ew). cbn [bind]. replace (0 <? Z.of_nat (fst b))%Z with true by lia. cbn [invariant bind].
    rewrite put_ok by exact Cp. cbn [bind]. cbn [set_cpos buffer_sorted]. rewrite (get_nth _ _ _ Es). cbn [bind].
    assert (Bl : first < length (all_buffers s)) by (now apply nth_error_lt in Eb).
    assert (Sl : first < length (buffer_sorted s)) by (now apply nth_error_lt in Es).
    (* common continuation *)
    assert (Go : forall bufs1 sor1, bufs1 = upd (all_buffers s) first (Some (map Some (isort (snd b)))) ->
      (sor1 = buffer_sorted s \/ sor1 = upd (buffer_sorted s) first true) ->
      exists bufs' sor' cp',
        for_each sort_body (seq (S first) (length L))
          (mk_q (q_nbound s) (buffer_size s) (nbuffers s) bufs1 (buffer_weight s) (buffer_level s) (cur_buffer s) (cur_buffer_pos s) sor1
             (upd (collapse_pos s) first 0) (collapse_even_low s) (q_lazy s) (q_count s), (acc + Z.of_nat (fst b))%Z)
        = Ok (mk_q (q_nbound s) (buffer_size s) (nbuffers s) bufs' (buffer_weight s) (buffer_level s) (cur_buffer s) (cur_buffer_pos s)
            sor' cp' (collapse_even_low s) (q_lazy s) (q_count s), (acc + Z.of_nat (wsumL (b :: L)))%Z)
        /\ length bufs' = length (all_buffers s) /\ length sor' = length (buffer_sorted s) /\ length cp' = length (collapse_pos s)
        /\ stored bufs' (buffer_weight s) first (map (fun b => (fst b, isort (snd b))) (b :: L))
        /\ (forall j, first <= j < first + S (length L) -> nth_error cp' j = Some 0)
        /\ (forall i, i < first \/ first + S (length L) <= i -> nth_error bufs' i = nth_error (all_buffers s) i /\ nth_error sor' i = nth_error (buffer_sorted s) i)).
    { intros bufs1 sor1 E1 E2. assert (Ls1 : length sor1 = length (buffer_sorted s)) by (destruct E2 as [->| ->]; rewrite ?length_upd; auto).
      assert (Ns1 : forall i, i <> first -> nth_error sor1 i = nth_error (buffer_sorted s) i).
      { intros i Hi. destruct E2 as [->| ->]; auto. rewrite nth_error_upd_neq; auto. }
      assert (Nb1 : forall i, i <> first -> nth_error bufs1 i = nth_error (all_buffers s) i) by (intros i Hi; subst bufs1; rewrite nth_error_upd_neq; auto).
      assert (Lb1 : length bufs1 = length (all_buffers s)) by (subst bufs1; apply length_upd).
      set (s1 := mk_q (q_nbound s) (buffer_size s) (nbuffers s) bufs1 (buffer_weight s) (buffer_level s) (cur_buffer s) (cur_buffer_pos s) sor1
             (upd (collapse_pos s) first 0) (collapse_even_low s) (q_lazy s) (q_count s)).
      destruct (IH (S first) s1 (acc + Z.of_nat (fst b))%Z) as (bufs' & sor' & cp' & R & L1 & L2 & L3 & S1 & C1 & O1).
      - subst s1; cbn [all_buffers buffer_weight]. intros j w vs E. destruct (ST j w vs E) as [A1 A2]. split; auto. rewrite Nb1 by lia. exact A1.
      - intros j w vs E. destruct (HL (S j) w vs E) as (A1 & A2 & A3 & so2 & A4 & A5 & A6). rewrite Nat.add_succ_r in *.
        subst s1; cbn [buffer_size collapse_pos buffer_sorted nbuffers]. rewrite length_upd. split; auto. split; auto. split; [lia|].
        exists so2. rewrite Ns1 by lia. auto.
      - exists bufs', sor', cp'. subst s1; cbn [q_nbound buffer_size nbuffers all_buffers buffer_weight buffer_level cur_buffer cur_buffer_pos
          buffer_sorted collapse_pos collapse_even_low q_lazy q_count] in *.
        split. { rewrite R. f_equal. f_equal. cbn [wsumL fold_right]. unfold wsumL. lia. }
        split; [congruence|]. split; [congruence|]. split; [rewrite L3; apply length_upd|]. split; [|split].
        + intros j w vs E. destruct j as [|j].
          * cbn in E. injection E as <- <-. rewrite Nat.add_0_r. split; auto. destruct (O1 first) as [O2 _]; [lia|]. rewrite O2. subst bufs1. now apply nth_error_upd_eq.
          * rewrite Nat.add_succ_r. apply (S1 j w vs E).
        + intros j Hj. destruct (Nat.eq_dec j first) as [->|Nj]; [|apply C1; lia].
          (* position first of cp' is untouched by later iterations *)
          revert R. clear - Cp. intros R.
          assert (Keep : forall n k q a q' a', first < k -> for_each sort_body (seq k n) (q, a) = Ok (q', a') -> nth_error (collapse_pos q') first = nth_error (collapse_pos q) first).
          { induction n as [|n IHn]; intros k q a q' a' Hk E; cbn [seq for_each] in E; [now injection E as <- <-|].
            destruct (sort_body k (q, a)) as [[q1 a1]| | |] eqn:Eb; try discriminate E. cbn [bind] in E.
            rewrite (IHn (S k) q1 a1 q' a') by (auto; lia). clear E. unfold sort_body in Eb.
            destruct (get (buffer_weight q) k) as [w| | |]; try discriminate Eb. cbn [bind] in Eb.
            destruct (0 <? w)%Z; try discriminate Eb. cbn [invariant bind] in Eb. unfold put at 1 in Eb.
            destruct (k <? length (collapse_pos q)); try discriminate Eb. cbn [bind] in Eb.
            destruct (get _ k) as [so| | |]; try discriminate Eb. cbn [bind] in Eb. destruct so.
            - injection Eb as <- <-. cbn [collapse_pos set_cpos]. rewrite nth_error_upd_neq; auto. lia.
            - destruct (invariant _) as [u| | |]; try discriminate Eb. cbn [bind] in Eb. unfold sort_buffer in Eb.
              destruct (buffer_of _ k) as [c| | |]; try discriminate Eb. cbn [bind] in Eb.
              destruct (sort_prefix _ c) as [c'| | |]; try discriminate Eb. cbn [bind] in Eb.
              destruct (put (all_buffers _) k _) as [a2| | |]; try discriminate Eb. cbn [bind] in Eb.
              destruct (put _ k true) as [s2| | |]; try discriminate Eb. cbn [bind] in Eb. injection Eb as <- <-.
              cbn [collapse_pos set_cpos set_meta set_bufs]. rewrite nth_error_upd_neq; auto. lia. }
          apply Keep in R; [|lia]. cbn [collapse_pos] in R. rewrite R. now apply nth_error_upd_eq.
        + intros i Hi. destruct (O1 i) as [O2 O3]; [lia|]. rewrite O2, O3. split; [apply Nb1; lia|apply Ns1; lia]. }
    destruct so.
    + rewrite <- (isort_sorted_id (snd b)) in Eb by auto.
      destruct (Go (all_buffers s) (buffer_sorted s)) as (bufs' & sor' & cp' & R); [symmetry; now apply upd_same|auto|].
      exists bufs', sor', cp'. cbn [bind]. exact R.
    + assert (I : (first =? nbuffers s - 1) || (Z.of_nat (fst b) =? 1)%Z = true) by (destruct (So2 eq_refl); lia).
      cbn [set_cpos nbuffers buffer_size]. rewrite I. cbn [invariant bind]. unfold sort_buffer, buffer_of. cbn [all_buffers set_cpos]. rewrite (get_nth _ _ _ Eb). cbn [bind].
      rewrite sort_prefix_full by exact Lv. cbn [bind]. rewrite put_ok by exact Bl. cbn [bind set_bufs buffer_sorted]. rewrite put_ok by exact Sl. cbn [bind].
      destruct (Go (upd (all_buffers s) first (Some (map Some (isort (snd b))))) (upd (buffer_sorted s) first true)) as (bufs' & sor' & cp' & R); auto.
      exists bufs', sor', cp'. exact R.
Qed.

(** The priority queue after pushing the heads. *)
Lemma RQ_perm pq l l' : RQ pq l -> Permutation l l' -> RQ pq l'.
Proof. intros (A & B & C & D & E) P. repeat (split; [assumption|]). now rewrite E. Qed.
Lemma RQ_new n : 0 < n -> RQ (pq_new pair0 (N.of_nat n)) [].
Proof. intros H. unfold pq_new, new_array, RepQ. cbn. rewrite repeat_length. repeat split; try lia; auto. intros i Hi. lia. Qed.

Lemma push_all_spec s cp : forall L l pq, RQ pq l -> (N.of_nat (length l + length L) < 2 ^ 31)%N ->
  (forall i, In i L -> exists v, collapseVal s cp i = Ok v) ->
  exists pq', push_all s cp L pq = Ok pq' /\ RQ pq' (map (fun i => (match collapseVal s cp i with Ok v => v | _ => 0%Z end, i)) L ++ l).
Proof.
  induction L as [|i L IH]; intros l pq R B H.
  - exists pq. split; auto.
  - unfold push_all. rewrite for_each_cons. destruct (H i (or_introl eq_refl)) as (v & Ev). rewrite Ev. cbn [bind].
    destruct (push_rep pairCmp pairCmp pair0 pc_total pc_trans pc_id pc_ge pq l (v, i) R) as (pq1 & E1 & R1); [simpl in B; lia|].
    rewrite E1. cbn [bind]. destruct (IH ((v, i) :: l) pq1 R1) as (pq' & E' & R').
    + simpl in *. lia.
    + intros j Hj. apply H. now right.
    + exists pq'. split; [exact E'|]. apply (RQ_perm _ _ _ R'). cbn [map]. rewrite Ev. cbn [app]. symmetry. apply Permutation_middle.
Qed.

(** The walk that starts with sorted buffers first, first+1, ... *)
Fixpoint walk_from (first : nat) (L : list (nat * list Z)) : walk :=
  match L with [] => [] | b :: r => (first, fst b, snd b) :: walk_from (S first) r end.
Lemma walk_from_ids first L : map wid (walk_from first L) = seq first (length L).
Proof. revert first; induction L as [|b L IH]; intros; simpl; auto. now rewrite IH. Qed.
Lemma walk_from_mass first L : mass (walk_from first L) = flat_map (fun b => stretch (fst b) (snd b)) L.
Proof. revert first; induction L as [|b L IH]; intros; simpl; auto. now rewrite <- (IH (S first)). Qed.
Lemma walk_from_elems first L : elems (walk_from first L) = fold_right (fun b n => length (snd b) + n) 0 L.
Proof. revert first; induction L as [|b L IH]; intros; simpl; auto. Qed.
Lemma walk_from_in first L e : In e (walk_from first L) -> exists j b, nth_error L j = Some b /\ e = (first + j, fst b, snd b).
Proof.
  revert first; induction L as [|b L IH]; intros first; simpl; [tauto|]. intros [<-|H].
  - exists 0, b. rewrite Nat.add_0_r. auto.
  - destruct (IH _ H) as (j & c & E & ->). exists (S j), c. rewrite Nat.add_succ_r. auto.
Qed.

Definition massL (L : list (nat * list Z)) : list Z := flat_map (fun b => stretch (fst b) (snd b)) L.
Lemma massL_length L k : (forall b, In b L -> length (snd b) = k) -> length (massL L) = k * wsumL L.
Proof. induction L as [|b L IH]; intros H; [simpl; lia|]. cbn [massL flat_map wsumL fold_right]. rewrite app_length, stretch_length, (H b (or_introl eq_refl)).
  fold (massL L). rewrite IH by (intros; apply H; now right). unfold wsumL. lia. Qed.
Lemma massL_isort L : Permutation (massL (map (fun b => (fst b, isort (snd b))) L)) (massL L).
Proof. induction L as [|b L IH]; simpl; auto. apply Permutation_app; auto. apply stretch_perm, isort_perm. Qed.
Lemma wsumL_map L : wsumL (map (fun b => (fst b, isort (snd b))) L) = wsumL L.
Proof. induction L; simpl; auto. Qed.
Lemma elemsL (L : list (nat * list Z)) k : (forall b, In b L -> length (snd b) = k) -> fold_right (fun b n => length (snd b) + n) 0 L = k * length L.
Proof. induction L as [|b L IH]; intros H; [simpl; lia|]. cbn [fold_right length]. rewrite IH, (H b (or_introl eq_refl)) by (intros; apply H; now right). lia. Qed.

(** Clearing the buffers after the collapsed one. *)
Lemma clear_spec : forall n first s,
  first + n <= length (buffer_weight s) -> first + n <= length (buffer_level s) -> first + n <= length (buffer_sorted s) ->
  exists w l so, for_each (fun i s =>
      let! w := put (buffer_weight s) i (-1)%Z in
      let! l := put (buffer_level s) i (-1)%Z in
      let! so := put (buffer_sorted s) i false in
      Ok (set_meta s w l so)) (seq first n) s = Ok (set_meta s w l so)
   /\ length w = length (buffer_weight s) /\ length l = length (buffer_level s) /\ length so = length (buffer_sorted s)
   /\ (forall i, i < first -> nth_error w i = nth_error (buffer_weight s) i /\ nth_error l i = nth_error (buffer_level s) i /\ nth_error so i = nth_error (buffer_sorted s) i).
Proof.
  induction n as [|n IH]; intros first s H1 H2 H3.
  - exists (buffer_weight s), (buffer_level s), (buffer_sorted s). split; [now destruct s|]. repeat (split; [reflexivity|]). auto.
  - cbn [seq]. rewrite for_each_cons, !put_ok by lia. cbn [bind].
    set (s1 := set_meta s _ _ _). destruct (IH (S first) s1) as (w & l & so & E & A & B & C & D); [cbn; rewrite length_upd; lia..|].
    exists w, l, so. split; [exact E|]. cbn in A, B, C. rewrite length_upd in A; rewrite length_upd in B; rewrite length_upd in C. split; auto. split; auto. split; auto.
    intros i Hi. destruct (D i) as (D1 & D2 & D3); [lia|]. cbn in D1, D2, D3. rewrite nth_error_upd_neq in D1 by lia; rewrite nth_error_upd_neq in D2 by lia; rewrite nth_error_upd_neq in D3 by lia. auto.
Qed.

Lemma offset_range e W : (2 <= W)%Z -> (1 <= fst (collapseNextQuantileOffset e W) <= W)%Z.
Proof. intros H. unfold collapseNextQuantileOffset. destruct (W mod 2 =? 0)%Z eqn:E; [destruct e|]; cbn [fst]; Z.to_euclidean_division_equations; lia. Qed.

(** collapse(): the buffers [first ..] form the last run of equal levels. *)
Theorem collapse_spec s first L lv :
  nbuffers s = first + length L -> 2 <= length L -> (N.of_nat (nbuffers s) < 2 ^ 31)%N -> nbuffers s <= length (collapse_pos s) ->
  length (buffer_weight s) = nbuffers s -> length (buffer_level s) = nbuffers s -> length (buffer_sorted s) = nbuffers s ->
  (q_count s < 10 ^ 14)%Z -> 0 < buffer_size s ->
  stored (all_buffers s) (buffer_weight s) first L ->
  (forall j, first <= j < nbuffers s -> nth_error (buffer_level s) j = Some (Z.of_nat lv)) ->
  (first = 0 \/ exists l', nth_error (buffer_level s) (first - 1) = Some l' /\ l' <> Z.of_nat lv) ->
  (forall j w vs, nth_error L j = Some (w, vs) -> length vs = buffer_size s /\ 0 < w
     /\ exists so, nth_error (buffer_sorted s) (first + j) = Some so /\ (so = true -> StronglySorted Z.le vs)
         /\ (so = false -> first + j = nbuffers s - 1 \/ w = 1)) ->
  let W := Z.of_nat (wsumL L) in
  let o := Z.to_nat (fst (collapseNextQuantileOffset (collapse_even_low s) W)) in
  exists s', collapse s = Ok s'
    /\ q_nbound s' = q_nbound s /\ buffer_size s' = buffer_size s /\ nbuffers s' = nbuffers s /\ q_lazy s' = q_lazy s /\ q_count s' = q_count s
    /\ cur_buffer s' = (Z.of_nat first + 1)%Z /\ cur_buffer_pos s' = cur_buffer_pos s
    /\ collapse_even_low s' = snd (collapseNextQuantileOffset (collapse_even_low s) W)
    /\ length (all_buffers s') = length (all_buffers s) /\ length (buffer_weight s') = nbuffers s /\ length (buffer_level s') = nbuffers s
    /\ length (buffer_sorted s') = nbuffers s /\ length (collapse_pos s') = length (collapse_pos s)
    /\ nth_error (all_buffers s') first = Some (Some (map Some (pick (isort (massL L)) (wsumL L) (o - 1) (buffer_size s))))
    /\ nth_error (buffer_weight s') first = Some W /\ nth_error (buffer_level s') first = Some (Z.of_nat (S lv))
    /\ nth_error (buffer_sorted s') first = Some true
    /\ (forall i, i < first -> nth_error (all_buffers s') i = nth_error (all_buffers s) i /\ nth_error (buffer_weight s') i = nth_error (buffer_weight s) i
          /\ nth_error (buffer_level s') i = nth_error (buffer_level s) i /\ nth_error (buffer_sorted s') i = nth_error (buffer_sorted s) i)
    /\ (forall i, first < i < nbuffers s -> exists vs, nth_error (all_buffers s') i = Some (Some (map Some vs)) /\ length vs = buffer_size s).
Proof.
  intros HN HL2 HB HC LW LL LS Cnt BS ST Lev Prev HL W o.
  assert (HW2 : (2 <= W)%Z). { subst W. destruct L as [|b1 [|b2 L']]; simpl in HL2; try lia.
    destruct (HL 0 (fst b1) (snd b1)) as (_ & P1 & _); [now destruct b1|]. destruct (HL 1 (fst b2) (snd b2)) as (_ & P2 & _); [now destruct b2|]. cbn [wsumL fold_right]. lia. }
  unfold collapse, collapseFindFirstBuffer.
  replace (q_count s <? 10 ^ 14)%Z with true by lia. cbn [invariant bind].
  (* the first buffer *)
  destruct (find_first_spec (buffer_level s) (Z.of_nat lv) (nbuffers s - 1)) as (f & Ef & F1 & F2 & F3). { apply Lev. lia. }
  assert (f = first).
  { destruct (Nat.lt_trichotomy f first) as [H|[H|H]]; auto; exfalso.
    - destruct Prev as [->|(l' & E' & N')]; [lia|]. rewrite F2 in E' by lia. congruence.
    - destruct F3 as [->|(l' & E' & N')]; [lia|]. rewrite Lev in E' by lia. congruence. }
  subst f. rewrite Ef. cbn [bind]. replace (first <? nbuffers s - 1) with true by lia. cbn [invariant bind].
  rewrite (get_nth _ _ (Z.of_nat lv)) by (apply Lev; lia). cbn [bind]. replace (0 <=? Z.of_nat lv)%Z with true by lia. cbn [invariant bind].
  (* sorting *)
  rewrite collapseSort_unfold. replace (nbuffers s - first) with (length L) by lia.
  destruct (sort_buffers_spec L first s 0%Z ST) as (bufs' & sor' & cp' & E1 & Lb & Lso & Lcp & ST' & CP0 & Keep).
  { intros j w vs E. destruct (HL j w vs E) as (A1 & A2 & A3). split; auto. split; auto. split; auto. assert (j < length L) by (now apply nth_error_lt in E). lia. }
  rewrite E1. cbn [bind]. rewrite Z.add_0_l. fold W.
  set (s1 := mk_q _ _ _ bufs' _ _ _ _ _ _ _ _ _).
  cbn [s1 collapse_even_low]. destruct (collapseNextQuantileOffset (collapse_even_low s) W) as [oz ev] eqn:Eoff.
  cbn [fst snd] in *. assert (Ro := offset_range (collapse_even_low s) W HW2). rewrite Eoff in Ro. cbn [fst] in Ro.
  set (s2 := set_even s1 ev).
  assert (B2 : all_buffers s2 = bufs') by reflexivity. assert (W2 : buffer_weight s2 = buffer_weight s) by reflexivity.
  set (L' := map (fun b => (fst b, isort (snd b))) L) in *.
  assert (LL' : length L' = length L) by apply map_length.
  assert (HL' : forall j w vs, nth_error L' j = Some (w, vs) -> length vs = buffer_size s /\ 0 < w /\ StronglySorted Z.le vs).
  { intros j w vs E. unfold L' in E. rewrite nth_error_map in E. destruct (nth_error L j) as [[w0 vs0]|] eqn:E0; [|discriminate]. cbn in E. injection E as <- <-.
    destruct (HL j w0 vs0 E0) as (A1 & A2 & _). rewrite isort_length. split; auto. split; auto. apply isort_sorted. }
  assert (WO : walk_ok s2 cp' (fun _ => buffer_size s) (walk_from first L')).
  { split. { rewrite walk_from_ids. apply seq_NoDup. }
    apply Forall_forall. intros e He. destruct (walk_from_in _ _ _ He) as (j & b & Ej & ->).
    destruct (HL' j (fst b) (snd b)) as (A1 & A2 & A3); [now destruct b|]. destruct (ST' j (fst b) (snd b)) as (A4 & A5); [now destruct b|].
    unfold entry_ok, wl, wid, wwt. cbn [fst snd]. split. { destruct (snd b); simpl in *; [lia|congruence]. } split; auto. split; [exact A5|]. split; auto.
    exists (snd b), (map Some (snd b)), 0. split; [exact A4|]. split. { apply firstn_all2. rewrite map_length. lia. } split; auto.
    split. { apply CP0. assert (j < length L') by (now apply nth_error_lt in Ej). lia. } reflexivity. }
  (* initial heads *)
  assert (CV : forall j b, nth_error L' j = Some b -> collapseVal s2 cp' (first + j) = Ok (hd 0%Z (snd b))).
  { intros j b Ej. destruct (HL' j (fst b) (snd b)) as (A1 & A2 & A3); [now destruct b|]. destruct (ST' j (fst b) (snd b)) as (A4 & A5); [now destruct b|].
    unfold collapseVal, buffer_of. rewrite B2, (get_nth _ _ _ A4). cbn [bind].
    rewrite (get_nth cp' _ 0). 2: { apply CP0. assert (j < length L') by (now apply nth_error_lt in Ej). lia. }
    cbn [bind]. destruct (snd b) as [|x r] eqn:Es; [simpl in A1; lia|]. reflexivity. }
  replace (collapse_pos s2) with cp' by reflexivity. replace (nbuffers s2) with (nbuffers s) by reflexivity. replace (buffer_size s2) with (buffer_size s) by reflexivity.
  replace (nbuffers s - first) with (length L') by lia.
  destruct (push_all_spec s2 cp' (seq first (length L')) [] (pq_new pair0 (N.of_nat (nbuffers s)))) as (pq & E3 & R3).
  { apply RQ_new. lia. } { rewrite seq_length. simpl. lia. }
  { intros i Hi. apply in_seq in Hi. destruct (nth_error L' (i - first)) as [b|] eqn:Ej.
    - exists (hd 0%Z (snd b)). replace i with (first + (i - first)) by lia. now apply CV.
    - apply nth_error_None in Ej. lia. }
  rewrite app_nil_r in R3.
  assert (Hh : map (fun i => (match collapseVal s2 cp' i with Ok v => v | _ => 0%Z end, i)) (seq first (length L')) = heads (walk_from first L')).
  { clear - CV. revert first CV. induction L' as [|b L' IH]; intros first CV; simpl; auto. f_equal.
    - specialize (CV 0 b eq_refl). rewrite Nat.add_0_r in CV. now rewrite CV.
    - apply IH. intros j c Ej. specialize (CV (S j) c Ej). now rewrite Nat.add_succ_r in CV. }
  rewrite Hh in R3. rewrite E3. cbn [bind].
  (* the walk *)
  assert (M : mass (walk_from first L') = massL L') by apply walk_from_mass.
  assert (Lk : forall b, In b L' -> length (snd b) = buffer_size s).
  { intros b Hb. apply In_nth_error in Hb. destruct Hb as (j & Ej). destruct (HL' j (fst b) (snd b)) as (A1 & _); [now destruct b|exact A1]. }
  destruct (collapse_loop_spec s2 (wsumL L) (fun _ => buffer_size s) ltac:(reflexivity) (nbuffers s * buffer_size s) (walk_from first L') pq cp' 0%Z (oz - 1)%Z [] (o - 1) WO R3)
    as (cp2 & E4 & Lcp2).
  { rewrite walk_from_elems, (elemsL L' (buffer_size s) Lk). nia. }
  { subst o. lia. }
  { intros e He. destruct (walk_from_in _ _ _ He) as (j & b & Ej & ->). cbn [wwt fst snd]. unfold L' in Ej. rewrite nth_error_map in Ej.
    destruct (nth_error L j) as [b0|] eqn:E0; [|discriminate]. cbn in Ej. injection Ej as <-. cbn [fst].
    clear - E0. revert j E0; induction L as [|c L IH]; intros [|j] E0; simpl in *; try discriminate. { injection E0 as <-. lia. } specialize (IH _ E0). lia. }
  { cbn [length]. lia. }
  { left. rewrite M, (massL_length L' (buffer_size s) Lk). replace (wsumL L') with (wsumL L) by (symmetry; apply wsumL_map).
    replace (buffer_size s2) with (buffer_size s) by reflexivity. cbn [length]. rewrite Nat.sub_0_r. subst o W. destruct (buffer_size s) as [|k]; [lia|]. simpl. lia. }
  fold W in E4. rewrite E4. cbn [bind]. replace (buffer_size s2) with (buffer_size s) in * by reflexivity. cbn [length app] in *. rewrite Nat.sub_0_r.
  rewrite M. replace (isort (massL L')) with (isort (massL L)).
  2: { apply isort_unique; [|apply isort_sorted]. rewrite isort_perm. symmetry. apply massL_isort. }
  set (out := pick _ _ _ _). assert (Lout : length out = buffer_size s) by apply pick_length.
  cbn [set_cpos buffer_size s2 set_even s1].
  replace ((oz - 1 + Z.of_nat (buffer_size s * wsumL L)) / W =? Z.of_nat (buffer_size s))%Z with true.
  2: { symmetry. apply Z.eqb_eq. symmetry. apply (Z.div_unique _ W _ (oz - 1)); [left; lia|]. subst W. lia. }
  cbn [invariant bind]. unfold buffer_of. cbn [all_buffers set_cpos s2 s1 set_even].
  destruct (nth_error L' 0) as [b0|] eqn:Eb0. 2: { apply nth_error_None in Eb0. lia. }
  destruct (ST' 0 (fst b0) (snd b0)) as (A4 & A5); [now destruct b0|]. rewrite Nat.add_0_r in A4, A5.
  rewrite (get_nth _ _ _ A4). cbn [bind]. assert (Fb : first < length bufs') by (now apply nth_error_lt in A4).
  rewrite put_ok by exact Fb. cbn [bind set_bufs buffer_level buffer_weight buffer_sorted].
  rewrite (get_nth _ _ (Z.of_nat lv)) by (apply Lev; lia). cbn [bind].
  cbn [set_bufs set_cpos s2 set_even s1 buffer_level buffer_weight buffer_sorted nbuffers].
  do 3 (rewrite put_ok by (rewrite ?Lso; lia); cbn [bind]).
  set (s3 := set_meta (set_bufs _ _) _ _ _).
  destruct (clear_spec (nbuffers s - (first + 1)) (first + 1) s3) as (w & l & so & E5 & A & B & C & D);
    [subst s3; cbn; rewrite length_upd; lia..|].
  rewrite E5. cbn [bind]. cbn in A, B, C, D. rewrite length_upd in A; rewrite length_upd in B; rewrite length_upd in C. eexists. split; [reflexivity|].
  subst s3. unfold set_cur, set_meta; cbn [set_bufs set_cpos s2 set_even s1 nbuffers q_nbound buffer_size all_buffers cur_buffer cur_buffer_pos collapse_pos collapse_even_low q_lazy q_count buffer_weight buffer_level buffer_sorted].
  do 8 (split; [reflexivity|]). split; [rewrite length_upd; exact Lb|]. split; [congruence|]. split; [congruence|]. split; [congruence|].
  split; [congruence|]. split; [now apply nth_error_upd_eq|].
  destruct (D first) as (D1 & D2 & D3); [lia|]. rewrite nth_error_upd_eq in D1 by lia; rewrite nth_error_upd_eq in D2 by lia; rewrite nth_error_upd_eq in D3 by lia.
  split; [exact D1|]. split; [rewrite D2; f_equal; lia|]. split; [exact D3|]. split.
  - intros i Hi. destruct (D i) as (D4 & D5 & D6); [lia|]. rewrite nth_error_upd_neq in D4 by lia; rewrite nth_error_upd_neq in D5 by lia; rewrite nth_error_upd_neq in D6 by lia. rewrite nth_error_upd_neq by lia.
    destruct (Keep i) as [K1 K2]; [lia|]. rewrite D4, D5, D6, K1, K2. auto.
  - intros i Hi. rewrite nth_error_upd_neq by lia. destruct (nth_error L' (i - first)) as [b|] eqn:Ej. 2: { apply nth_error_None in Ej. lia. }
    destruct (ST' (i - first) (fst b) (snd b)) as (B4 & _); [now destruct b|]. replace (first + (i - first)) with i in B4 by lia.
    exists (snd b). split; auto. apply Lk. now apply nth_error_In with (i - first).
Qed.
