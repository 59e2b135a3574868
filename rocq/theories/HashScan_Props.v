(** C84: scanning a HashTable in turns, with changes between them. *)
From Coq Require Import List Arith NArith Lia Bool Permutation.
From Verif Require Import Common CommonFacts HashTable_Model HashTable_Spec HashTable_Proofs HashTable_Refine HashTable_Facts HashScan_Model HashScan_Proofs.
Import ListNotations.

(** The number of chains, what chainLengthStats counts *)
Definition buckets {D : Type} (t : ht D) : nat := length (entry_points t).
(** [d] is in the table: a full iteration shows it *)
Definition present {D : Type} (t : ht D) (d : D) : Prop := exists l, ht_iterate t = Ok l /\ In d l.
(** The iterator equals end() *)
Definition finished {D : Type} (t : ht D) (it : iter) : Prop := it_eqb it (ht_end t) = true.

Lemma rising_const {D : Type} : forall (tabs : list (ht D)) n, (forall t', In t' tabs -> buckets t' = n) -> rising n tabs.
Proof.
  induction tabs as [|t tabs IH]; intros n H; cbn [rising]; [exact I|].
  pose proof (H t (or_introl eq_refl)) as E. unfold buckets in E. split; [lia|]. rewrite E. apply IH.
  intros t' I'. apply H. right. exact I'.
Qed.

(** A scan that begins at begin() and visits one chain per turn, while the program changes the
    table between the turns without enlarging it: nothing goes wrong; every turn shows
    elements then in the table, each as often as it is there; no turn shows an element equal
    to one of an earlier turn; it ends within as many turns as there are chains; and when
    it has ended, every element that was in the table at begin() and at every turn was
    visited. *)
Theorem C84_scan_partial :
  forall (D : Type) (hashfn : D -> N) (equal : D -> D -> bool) (default : D) (t : ht D) batches tabs,
  (forall a b, equal a b = true -> hashfn a = hashfn b) ->
  reachable hashfn equal default t ->
  tables hashfn equal default t batches = Ok tabs ->
  (forall t', In t' tabs -> buckets t' = buckets t) ->
  exists rows it', scan hashfn equal default t (ht_begin t 0) batches = Ok (rows, it') /\ map fst rows = tabs
    /\ (forall t' vis, In (t', vis) rows -> exists l rest, ht_iterate t' = Ok l /\ Permutation l (vis ++ rest))
    /\ (forall i j t1 v1 t2 v2 d1 d2, i < j -> nth_error rows i = Some (t1, v1) -> nth_error rows j = Some (t2, v2) ->
          In d1 v1 -> In d2 v2 -> equal d1 d2 = false)
    /\ (buckets t <= length batches -> finished t it')
    /\ (finished t it' -> forall d, present t d -> (forall t', In t' tabs -> present t' d) ->
          exists t' vis, In (t', vis) rows /\ In d vis).
Proof.
  intros D hashfn equal default t batches tabs EH HR T S.
  destruct (scan_trace hashfn equal default EH batches t (ht_begin t 0) tabs HR
              (begin_kept hashfn equal default EH t HR) T (rising_const tabs _ S)) as (rows & it' & X & Tr & M).
  assert (S' : forall t' v, In (t', v) rows -> length (entry_points t') = buckets t).
  { intros t' v I'. apply S. rewrite <- M. apply (in_map fst) in I'. exact I'. }
  assert (Le : length rows = length batches).
  { clear - T M. rewrite <- (map_length fst rows), M. clear M. revert t tabs T.
    induction batches as [|ops b IH]; intros t tabs T; cbn [tables] in T; [injection T as <-; reflexivity|].
    destruct (ht_exec hashfn equal default t ops) as [t1| | |]; try discriminate T. cbn [bind] in T.
    destruct (tables hashfn equal default t1 b) as [r| | |] eqn:E; try discriminate T. cbn [bind] in T.
    injection T as <-. cbn. f_equal. exact (IH _ _ E). }
  pose proof (trace_kept hashfn _ _ _ _ Tr S' (begin_kept hashfn equal default EH t HR)) as [K1 K2].
  exists rows, it'. split; [exact X|]. split; [exact M|]. split; [|split; [|split]].
  - intros t' vis I'. destruct (trace_rows hashfn _ _ _ Tr t' vis I') as (l & P & E & ->).
    exists l, (filter (fun x => negb (P x)) l). split; [exact E|apply filter_split_perm].
  - intros i j t1 v1 t2 v2 d1 d2 L E1 E2 I1 I2.
    pose proof (trace_disjoint hashfn _ _ _ _ Tr S' i j t1 v1 t2 v2 d1 d2 L E1 E2 I1 I2) as B.
    destruct (equal d1 d2) eqn:E; [|reflexivity]. apply EH in E. unfold bucket_of in B. rewrite E in B. lia.
  - intros L. pose proof (trace_ends hashfn _ _ _ _ Tr S') as F. rewrite Le in F.
    unfold finished. rewrite ht_end_eq. unfold it_eqb. cbn [cur_chain chain_loc].
    fold (buckets t). assert (C : cur_chain it' = buckets t) by lia. rewrite (K2 C), C, Nat.eqb_refl. reflexivity.
  - intros F d (l & E & I') P. apply (trace_covers hashfn _ _ _ _ d Tr S').
    + intros t' v J. apply P. rewrite <- M. apply (in_map fst) in J. exact J.
    + split; [exact (begin_before hashfn equal default EH t l d HR E I')|].
      unfold finished in F. rewrite ht_end_eq in F. unfold it_eqb in F. cbn [cur_chain chain_loc] in F.
      apply andb_prop in F as [F _]. apply Nat.eqb_eq in F. rewrite F. exact (bucket_in hashfn equal default EH t l d HR E I').
Qed.
Print Assumptions C84_scan_partial.

(** Changes without add, addOrReplace and reserve do not enlarge the table. *)
Theorem C84_no_growth :
  forall (D : Type) (hashfn : D -> N) (equal : D -> D -> bool) (default : D) batches (t : ht D) tabs,
  tables hashfn equal default t batches = Ok tabs ->
  (forall ops o, In ops batches -> In o ops ->
     match o with TAdd _ | TAddOrReplace _ | TReserve _ => False | _ => True end) ->
  forall t', In t' tabs -> buckets t' = buckets t.
Proof.
  intros D hashfn equal default. induction batches as [|ops b IH]; intros t tabs T G; cbn [tables] in T.
  - injection T as <-. intros t' [].
  - destruct (ht_exec hashfn equal default t ops) as [t1| | |] eqn:E; try discriminate T. cbn [bind] in T.
    destruct (tables hashfn equal default t1 b) as [r| | |] eqn:E1; try discriminate T. cbn [bind] in T.
    injection T as <-. destruct (exec_grows hashfn equal default ops t t1 E) as [_ H].
    assert (B : buckets t1 = buckets t).
    { apply H. clear - G. specialize (G ops). induction ops as [|o ops IH]; [reflexivity|]. cbn [existsb].
      apply orb_false_intro.
      - specialize (G o (or_introl eq_refl) (or_introl eq_refl)). destruct o; try reflexivity; contradiction.
      - apply IH. intros o' _ I'. apply (G o'); [left; reflexivity|right; exact I']. }
    intros t' [<-|I']; [exact B|]. rewrite (IH t1 r E1 (fun o o' J => G o o' (or_intror J)) t' I'). exact B.
Qed.
Print Assumptions C84_no_growth.

(** When the table is enlarged during the scan, nothing goes wrong and what is shown is in
    the table at that time. *)
Theorem C84_growth_safe :
  forall (D : Type) (hashfn : D -> N) (equal : D -> D -> bool) (default : D) (t : ht D) batches tabs,
  (forall a b, equal a b = true -> hashfn a = hashfn b) ->
  reachable hashfn equal default t ->
  tables hashfn equal default t batches = Ok tabs ->
  (forall ops o, In ops batches -> In o ops -> match o with TReserve _ => False | _ => True end) ->
  exists rows it', scan hashfn equal default t (ht_begin t 0) batches = Ok (rows, it') /\ map fst rows = tabs
    /\ (forall t' vis, In (t', vis) rows -> exists l rest, ht_iterate t' = Ok l /\ Permutation l (vis ++ rest)).
Proof.
  intros D hashfn equal default t batches tabs EH HR T G.
  assert (S : rising (length (entry_points t)) tabs).
  { clear HR. revert t tabs T G. induction batches as [|ops b IH]; intros t tabs T G; cbn [tables] in T.
    - injection T as <-. exact I.
    - destruct (ht_exec hashfn equal default t ops) as [t1| | |] eqn:E; try discriminate T. cbn [bind] in T.
      destruct (tables hashfn equal default t1 b) as [r| | |] eqn:E1; try discriminate T. cbn [bind] in T.
      injection T as <-. destruct (exec_grows hashfn equal default ops t t1 E) as [H _]. cbn [rising]. split.
      + apply H. clear - G. specialize (G ops). induction ops as [|o ops IH]; [reflexivity|]. cbn [existsb].
        apply orb_false_intro.
        * specialize (G o (or_introl eq_refl) (or_introl eq_refl)). destruct o; try reflexivity; contradiction.
        * apply IH. intros o' _ I'. apply (G o'); [left; reflexivity|right; exact I'].
      + exact (IH t1 r E1 (fun o o' J => G o o' (or_intror J))). }
  destruct (scan_trace hashfn equal default EH batches t (ht_begin t 0) tabs HR
              (begin_kept hashfn equal default EH t HR) T S) as (rows & it' & X & Tr & M).
  exists rows, it'. split; [exact X|]. split; [exact M|].
  intros t' vis I'. destruct (trace_rows hashfn _ _ _ Tr t' vis I') as (l & P & E & ->).
  exists l, (filter (fun x => negb (P x)) l). split; [exact E|apply filter_split_perm].
Qed.
Print Assumptions C84_growth_safe.

(** A table of numbers hashed to themselves *)
Definition h_id (n : nat) : N := N.of_nat n.
Definition made (ops : list (top nat)) : res (ht nat) := let! t := ht_new 2 1 in ht_exec h_id Nat.eqb 0 t ops.
Lemma made_reachable ops t : made ops = Ok t -> reachable h_id Nat.eqb 0 t.
Proof. intros E. exists 2, 1, (mk_ht None 0 [] [] 2 1), ops. split; [reflexivity|exact E]. Qed.

(** Seven elements in five chains; during the scan 3 and 12 are removed and 7 is added *)
Example C84_scan_ex : exists t rows it',
  made [TAdd 1; TAdd 2; TAdd 3; TAdd 6; TAdd 11; TAdd 12; TAdd 4] = Ok t /\ buckets t = 5 /\
  scan h_id Nat.eqb 0 t (ht_begin t 0) [[]; [TRemove 3 true]; [TRemove 12 true; TAdd 7]; []; []] = Ok (rows, it') /\
  map snd rows = [[11; 6; 1]; [12; 2]; [4]; []; []] /\ finished t it' /\
  map (fun r => buckets (fst r)) rows = [5; 5; 5; 5; 5].
Proof.
  destruct (made [TAdd 1; TAdd 2; TAdd 3; TAdd 6; TAdd 11; TAdd 12; TAdd 4]) as [t| | |] eqn:E; vm_compute in E; try discriminate.
  injection E as <-. do 3 eexists. split; [reflexivity|]. split; [reflexivity|]. split; [vm_compute; reflexivity|].
  vm_compute. auto.
Qed.
Example C84_no_growth_ex : exists t tabs,
  made [TAdd 1; TAdd 2] = Ok t /\ tables h_id Nat.eqb 0 t [[TRemove 1 true]; [TClear; TLookup 2]] = Ok tabs /\ length tabs = 2.
Proof. do 2 eexists. split; [vm_compute; reflexivity|]. split; vm_compute; reflexivity. Qed.

(** The comment of partialReset promises a safe restart after some number of updates. When the
    updates enlarge the table, an element that was there all the time can be missed (24) and
    another one shown in two turns (5), though the scan comes to its end. *)
Theorem C84_growth_refuted : exists t rows it' t',
  made [TAdd 24; TAdd 5; TAdd 1] = Ok t /\
  scan h_id Nat.eqb 0 t (ht_begin t 0) [[]; []; map TAdd (seq 100 10); []; []; []; []; []; []; []; []; []; []] = Ok (rows, it') /\
  (forall r, In r rows -> present (fst r) 24 /\ present (fst r) 5) /\ present t 24 /\
  last (map fst rows) t = t' /\ finished t' it' /\
  ~ In 24 (concat (map snd rows)) /\ count_occ Nat.eq_dec (concat (map snd rows)) 5 = 2.
Proof.
  do 4 eexists. split; [vm_compute; reflexivity|]. split; [vm_compute; reflexivity|].
  split; [|split; [|split; [reflexivity|split; [vm_compute; reflexivity|]]]].
  - intros r I'. cbn in I'.
    repeat (destruct I' as [<-|I']; [split; (eexists; split; [vm_compute; reflexivity|vm_compute; tauto])|]). contradiction.
  - eexists. split; [vm_compute; reflexivity|vm_compute; tauto].
  - split; [|vm_compute; reflexivity]. vm_compute. intuition discriminate.
Qed.
Print Assumptions C84_growth_refuted.

(** reserve can shrink a table that was cleared. A kept iterator then points past the end, and
    partialReset asserts. *)
Theorem C84_reserve_refuted : exists t it,
  made [TReserve 40; TAdd 20] = Ok t /\ ht_begin t 0 = it /\
  scan h_id Nat.eqb 0 t it [[TClear; TReserve 1]] = Abort.
Proof. do 2 eexists. split; [vm_compute; reflexivity|]. split; vm_compute; reflexivity. Qed.
Print Assumptions C84_reserve_refuted.

(** reset() goes back to begin(), when the table is not empty; *)
Theorem C84_reset_partial :
  forall (D : Type) (hashfn : D -> N) (equal : D -> D -> bool) (default : D) (t : ht D) it,
  (forall a b, equal a b = true -> hashfn a = hashfn b) ->
  reachable hashfn equal default t -> ht_size t <> 0 -> it_reset t it = ht_begin t 0.
Proof.
  intros D hashfn equal default t it EH HR NE.
  destruct (reachable_live hashfn equal default EH t HR) as (l & L).
  destruct (Live_size hashfn t l L) as [Sz _]. destruct L as (css & fl & R & El).
  destruct (fne_spec hashfn t css fl 0 R ltac:(lia)) as (_ & H & [F|(i & r & C & _ & Ee & _)]).
  - exfalso. apply NE. rewrite Sz, El.
    assert (Z : concat css = []).
    { assert (forall b, b < length css -> nth_error css b = Some []) as Z.
      { intros b Hb. apply H. rewrite F. cbn. rewrite (Forall2_length' _ _ _ (r_ep _ _ _ _ R)). lia. }
      clear - Z. induction css as [|c css IH]; [reflexivity|]. cbn [concat].
      pose proof (Z 0 ltac:(cbn; lia)) as Z0. injection Z0 as ->. apply IH. intros b Hb. exact (Z (S b) ltac:(cbn; lia)). }
    rewrite Z. reflexivity.
  - unfold it_reset, ht_begin, fne, findNonemptyChain in *. cbn [cur_chain chain_loc] in *.
    set (c := skip_empty (length (entry_points t)) (entry_points t) 0) in *.
    destruct (nth_error (entry_points t) c) as [e|] eqn:Ec; [reflexivity|]. exfalso.
    cbn [cur_chain] in C. apply nth_error_None in Ec. lia.
Qed.
Print Assumptions C84_reset_partial.
Example C84_reset_ex : exists t, made [TAdd 3; TAdd 8] = Ok t /\ ht_size t <> 0 /\ it_reset t (ht_end t) = ht_begin t 0.
Proof. eexists. split; [vm_compute; reflexivity|]. split; [vm_compute; discriminate|reflexivity]. Qed.

(** but after the last element was removed it is not end(), and shows a value nobody added. *)
Theorem C84_reset_refuted : exists t it,
  made [TAdd 3] = Ok t /\ ht_begin t 0 = it /\
  exists t', ht_exec h_id Nat.eqb 0 t [TRemove 3 true] = Ok t' /\ ht_size t' = 0 /\
    it_eqb (it_reset t' it) (ht_end t') = false /\ it_deref t' (it_reset t' it) = Ok 0.
Proof. do 2 eexists. split; [vm_compute; reflexivity|]. split; [reflexivity|]. eexists. vm_compute. auto. Qed.
Print Assumptions C84_reset_refuted.

(** What the comment of atStartOfChain warns of: a client that handles one element per turn
    sees the same one for ever when its chain has another. *)
Theorem C84_single_stuck :
  forall (D : Type) (hashfn : D -> N) (equal : D -> D -> bool) (default : D) (t : ht D),
  (forall a b, equal a b = true -> hashfn a = hashfn b) ->
  reachable hashfn equal default t -> it_atEndOfChain t (ht_begin t 0) = Ok false ->
  exists d it, single_turn t (ht_begin t 0) = Ok (d, it) /\ single_turn t it = Ok (d, it).
Proof.
  intros D hashfn equal default t EH HR A.
  pose proof (begin_kept hashfn equal default EH t HR) as K.
  destruct (reachable_live hashfn equal default EH t HR) as (l & css & fl & R & _).
  unfold single_turn at 1. rewrite (partial_fne t _ K). cbn [bind].
  assert (Fb : fne t (cur_chain (ht_begin t 0)) = ht_begin t 0).
  { destruct (fne_spec hashfn t css fl 0 R ltac:(lia)) as (_ & _ & H). change (ht_begin t 0) with (fne t 0).
    destruct H as [H|(i & r & C & _ & Ee & El)].
    - rewrite H at 1 2. cbn [cur_chain]. change (fne t (length (entry_points t))) with (ht_end t). apply ht_end_eq.
    - set (c := cur_chain (fne t 0)) in *. unfold fne at 1, findNonemptyChain. cbn [cur_chain chain_loc].
      assert (Sk : skip_empty (length (entry_points t)) (entry_points t) c = c).
      { destruct (length (entry_points t)); cbn [skip_empty]; [reflexivity|]. rewrite Ee. reflexivity. }
      rewrite Sk, Ee, <- El. unfold c. destruct (fne t 0); reflexivity. }
  rewrite Fb. destruct (fne_spec hashfn t css fl 0 R ltac:(lia)) as (_ & _ & H). change (fne t 0) with (ht_begin t 0) in H.
  unfold it_atEndOfChain in A. destruct H as [H|(i & r & C & Ec & Ee & El)].
  { rewrite H in A. cbn [cur_chain] in A. rewrite Nat.eqb_refl in A. discriminate. }
  destruct (Nat.eqb_spec (cur_chain (ht_begin t 0)) (length (entry_points t))) as [|_]; [lia|].
  rewrite El in A. destruct (get (chains t) i) as [[d n]| | |] eqn:G; try discriminate A. cbn [bind] in A.
  destruct n as [j|]; [|discriminate A].
  assert (Hi : i < length (chains t)).
  { unfold get in G. destruct (nth_error (chains t) i) eqn:N; [|discriminate]. eauto using nth_error_lt. }
  exists d, (mk_iter (cur_chain (ht_begin t 0)) (Some j)).
  assert (One : (let! d := it_deref t (ht_begin t 0) in let! it := it_increment t (ht_begin t 0) in Ok (d, it))
                = Ok (d, mk_iter (cur_chain (ht_begin t 0)) (Some j))).
  { unfold it_deref, it_increment. rewrite El, (proj2 (Nat.ltb_lt _ _) Hi), G. reflexivity. }
  split; [exact One|]. unfold single_turn. rewrite (partial_fne t (mk_iter (cur_chain (ht_begin t 0)) (Some j))).
  - cbn [bind cur_chain]. rewrite Fb. exact One.
  - split; cbn [cur_chain]; [lia|]. intros Q. lia.
Qed.
Print Assumptions C84_single_stuck.
Example C84_single_stuck_ex : exists t, made [TAdd 3; TAdd 8] = Ok t /\ it_atEndOfChain t (ht_begin t 0) = Ok false.
Proof. eexists. split; vm_compute; reflexivity. Qed.
