(** Proofs about incremental scans. *)
From Coq Require Import List Arith NArith Lia Bool Permutation.
From Verif Require Import Common CommonFacts HashTable_Model HashTable_Spec HashTable_Proofs HashTable_Refine HashTable_Facts HashScan_Model.
Import ListNotations.

Section P.
Context {D : Type}.
Variable hashfn : D -> N.
Variable equal : D -> D -> bool.
Variable default : D.
Notation ht := (ht D).
Notation rep := (rep hashfn).
Notation Live := (Live hashfn).
Notation size t := (length (entry_points t)).
Notation bkt t := (bucket_of hashfn (length (entry_points t))).

Lemma skip_empty_none : forall n (ep : list (option nat)) c b,
  c <= b < skip_empty n ep c -> nth_error ep b = Some None.
Proof.
  induction n as [|n IH]; intros ep c b H; cbn [skip_empty] in H; [lia|].
  destruct (nth_error ep c) as [[j|]|] eqn:E; try lia.
  destruct (Nat.eq_dec b c) as [->|]; [exact E|]. apply (IH ep (S c)). lia.
Qed.

(** What findNonemptyChain finds from chain [c] on *)
Definition fne (t : ht) (c : nat) : iter := findNonemptyChain t (mk_iter c None).
Lemma fne_spec t css fl c : rep t css fl -> c <= size t ->
  c <= cur_chain (fne t c) <= size t /\
  (forall b, c <= b < cur_chain (fne t c) -> nth_error css b = Some []) /\
  (fne t c = mk_iter (size t) None \/
   exists i l, cur_chain (fne t c) < size t /\ nth_error css (cur_chain (fne t c)) = Some (i :: l) /\
     nth_error (entry_points t) (cur_chain (fne t c)) = Some (Some i) /\ chain_loc (fne t c) = Some i).
Proof.
  intros R Hc. unfold fne, findNonemptyChain. cbn [cur_chain chain_loc].
  destruct (skip_empty_spec hashfn t css fl R (size t) c Hc ltac:(lia)) as (H1 & _ & H3).
  pose proof (skip_empty_none (size t) (entry_points t) c) as H2.
  set (c' := skip_empty (size t) (entry_points t) c) in *.
  assert (E : forall b, c <= b < c' -> nth_error css b = Some []).
  { intros b Hb. destruct (Forall2_nth_l _ _ _ _ _ (r_ep _ _ _ _ R) (H2 b Hb)) as (x & Ex & P).
    inversion P; subst x. exact Ex. }
  destruct (nth_error (entry_points t) c') as [[j|]|] eqn:Ec; [|congruence|]; cbn [cur_chain chain_loc].
  - split; [exact H1|]. split; [exact E|]. right.
    destruct (Forall2_nth_l _ _ _ _ _ (r_ep _ _ _ _ R) Ec) as (x & Ex & P).
    inversion P as [|? d n l Ej P']; subst. exists j, l. repeat split; auto. eauto using nth_error_lt.
  - split; [exact H1|]. split; [exact E|]. left. apply nth_error_None in Ec. f_equal. lia.
Qed.
Lemma fne_start t css fl c : rep t css fl -> c <= size t -> it_atStartOfChain t (fne t c) = Ok true.
Proof.
  intros R Hc. unfold it_atStartOfChain.
  destruct (fne_spec t css fl c R Hc) as (_ & _ & [->|(i & l & H1 & _ & H3 & H4)]); cbn [cur_chain].
  - rewrite Nat.eqb_refl. reflexivity.
  - destruct (Nat.eqb_spec (cur_chain (fne t c)) (size t)); [reflexivity|].
    rewrite (get_Some _ _ _ H3), H4. cbn. rewrite Nat.eqb_refl. reflexivity.
Qed.

(** An iterator kept between turns *)
Definition kept (n : nat) (it : iter) : Prop := cur_chain it <= n /\ (cur_chain it = n -> chain_loc it = None).
Lemma kept_more n m it : kept n it -> n <= m -> kept m it.
Proof. intros [H1 H2] L. split; [lia|]. intros E. apply H2. lia. Qed.
Lemma fne_kept t css fl c : rep t css fl -> c <= size t -> kept (size t) (fne t c).
Proof.
  intros R Hc. destruct (fne_spec t css fl c R Hc) as (H & _ & [->|(i & l & H1 & _)]); split; cbn; try lia; auto.
Qed.
Lemma partial_fne t it : kept (size t) it -> it_partialReset t it = Ok (fne t (cur_chain it)).
Proof.
  intros [H1 H2]. unfold it_partialReset.
  destruct (nth_error (entry_points t) (cur_chain it)) as [e|] eqn:E.
  - f_equal. unfold fne, findNonemptyChain. cbn [cur_chain chain_loc].
    destruct e as [j|]; [|reflexivity].
    assert (S : skip_empty (size t) (entry_points t) (cur_chain it) = cur_chain it).
    { destruct (size t); cbn [skip_empty]; [reflexivity|]. rewrite E. reflexivity. }
    rewrite S, E. reflexivity.
  - apply nth_error_None in E. assert (C : cur_chain it = size t) by lia.
    rewrite C, Nat.eqb_refl. cbn [invariant bind]. f_equal.
    fold (ht_end t) in *. unfold fne. change (findNonemptyChain t (mk_iter (size t) None)) with (ht_end t).
    rewrite ht_end_eq. destruct it as [c l]. cbn in *. rewrite C, H2 by exact C. reflexivity.
Qed.

(** Visiting the rest of a chain *)
Lemma visit_spec t css fl c : rep t css fl -> forall l l0 i fuel, c < size t ->
  nth_error css c = Some (l0 ++ i :: l) -> length l < fuel ->
  visit_chain fuel t (mk_iter c (Some i)) = Ok (map snd (live_of (chains t) (i :: l)), fne t (S c)).
Proof.
  intros R. induction l as [|j l IH]; intros l0 i fuel Hc E F; (destruct fuel as [|fuel]; [cbn in F; lia|]);
    cbn [visit_chain]; rewrite ht_end_eq; unfold it_eqb at 1; cbn [cur_chain chain_loc opt_nat_eqb];
    rewrite andb_false_r;
    destruct (Forall2_nth_r _ _ _ _ _ (r_ep _ _ _ _ R) E) as (e & Ee & P);
    pose proof P as P0; apply path_suffix, path_head in P; destruct P as (d & n & _ & Ei & P);
    assert (Hi := nth_error_lt _ _ _ Ei);
    unfold it_deref, it_increment; cbn [cur_chain chain_loc];
    rewrite (proj2 (Nat.ltb_lt _ _) Hi), (get_Some _ _ _ Ei); cbn [bind].
  - inversion P; subst n. cbn [bind].
    change (findNonemptyChain t (mk_iter (S c) None)) with (fne t (S c)).
    rewrite (fne_start t css fl (S c) R) by lia. cbn [bind].
    rewrite (live_of_cons _ _ _ _ _ Ei). reflexivity.
  - apply path_head in P. destruct P as (d' & n' & -> & Ej & P). cbn [bind].
    assert (B : it_atStartOfChain t (mk_iter c (Some j)) = Ok false).
    { unfold it_atStartOfChain. cbn [cur_chain chain_loc].
      destruct (Nat.eqb_spec c (size t)); [lia|]. rewrite (get_Some _ _ _ Ee). cbn [bind].
      assert (ND := rep_nodup_chain _ _ _ _ _ _ R E).
      assert (Q : exists h r, l0 ++ [i] = h :: r) by (destruct l0; cbn; eauto). destruct Q as (h & r & Q).
      replace (l0 ++ i :: j :: l) with ((l0 ++ [i]) ++ j :: l) in * by (rewrite <- app_assoc; reflexivity).
      rewrite Q in *. apply path_head in P0. destruct P0 as (dh & nh & -> & _). cbn [opt_nat_eqb].
      destruct (Nat.eqb_spec h j) as [->|]; [|reflexivity]. exfalso.
      cbn in ND. inversion ND; subst. apply H1. apply in_or_app. right. left. reflexivity. }
    rewrite B. cbn [bind].
    rewrite (IH (l0 ++ [i]) j fuel Hc); [|rewrite <- app_assoc; exact E|cbn in F; lia].
    cbn [bind]. rewrite (live_of_cons _ i _ _ _ Ei). reflexivity.
Qed.

(** The elements whose bucket is the visited one *)
Definition els (t : ht) (l : list nat) : list D := map snd (live_of (chains t) l).
Lemma els_app t a b : els t (a ++ b) = els t a ++ els t b.
Proof. unfold els. rewrite live_of_app, map_app. reflexivity. Qed.
Lemma filter_chains (t : ht) (P : D -> bool) : forall css k x,
  (forall h c, nth_error css h = Some c -> filter P (els t c) = if h =? k then els t c else []) ->
  nth_error css k = Some x -> filter P (els t (concat css)) = els t x.
Proof.
  assert (Z : forall css, (forall h c, nth_error css h = Some c -> filter P (els t c) = []) ->
            filter P (els t (concat css)) = []).
  { induction css as [|y css IH]; intros H; [reflexivity|]. cbn [concat]. rewrite els_app, filter_app.
    rewrite (H 0 y eq_refl), IH; [reflexivity|]. intros h c E. apply (H (S h) c E). }
  induction css as [|y css IH]; intros [|k] x H E; cbn in E; try discriminate; cbn [concat]; rewrite els_app, filter_app.
  - injection E as ->. rewrite (H 0 x eq_refl). cbn [Nat.eqb]. rewrite Z; [apply app_nil_r|].
    intros h c Eh. rewrite (H (S h) c Eh). reflexivity.
  - rewrite (H 0 y eq_refl). cbn [Nat.eqb app]. apply (IH k x); [|exact E].
    intros h c Eh. rewrite (H (S h) c Eh). reflexivity.
Qed.
Lemma filter_all {A} (P : A -> bool) l : (forall x, In x l -> P x = true) -> filter P l = l.
Proof. induction l as [|x l IH]; intros H; cbn; [reflexivity|]. rewrite (H x (or_introl eq_refl)), IH; [reflexivity|]. intros; apply H; right; auto. Qed.
Lemma filter_none {A} (P : A -> bool) l : (forall x, In x l -> P x = false) -> filter P l = [].
Proof. induction l as [|x l IH]; intros H; cbn; [reflexivity|]. rewrite (H x (or_introl eq_refl)). apply IH. intros; apply H; right; auto. Qed.
Lemma in_els t css fl h c d : rep t css fl -> nth_error css h = Some c -> In d (els t c) -> bkt t d = h.
Proof.
  intros R E I. unfold els in I. apply in_map_iff in I as ([i d'] & <- & I).
  apply in_live_of in I as (I & n & En). exact (r_hash _ _ _ _ R h c i d' n E I En).
Qed.

Definition between (t : ht) (lo hi : nat) (d : D) : bool := (lo <=? bkt t d) && (bkt t d <? hi).
Lemma turn_spec t l it : Live t l -> kept (size t) it ->
  exists it', turn t it = Ok (filter (between t (cur_chain it) (cur_chain it')) (map snd l), it')
    /\ kept (size t) it' /\ cur_chain it <= cur_chain it'
    /\ (cur_chain it < size t -> cur_chain it < cur_chain it').
Proof.
  intros (css & fl & R & ->) K. unfold turn. rewrite (partial_fne t it K). cbn [bind].
  destruct K as [K1 K2]. destruct (fne_spec t css fl (cur_chain it) R K1) as (H1 & H2 & H3).
  set (it1 := fne t (cur_chain it)) in *. change (map snd (live_of (chains t) (concat css))) with (els t (concat css)).
  destruct H3 as [H3|(i & r & C & Ec & Ee & El)].
  - exists it1. split.
    + unfold fuel_of. cbn [visit_chain]. rewrite ht_end_eq, H3. unfold it_eqb. cbn [cur_chain chain_loc opt_nat_eqb].
      rewrite Nat.eqb_refl. cbn [andb]. f_equal. f_equal. symmetry. apply filter_none. intros d I.
      unfold els in I. apply in_map_iff in I as ([k d'] & <- & I). apply in_live_of in I as (I & n & En).
      apply in_concat_ex in I as (h & c & Eh & I). cbn [snd].
      pose proof (r_hash _ _ _ _ R h c k d' n Eh I En) as B. unfold between. rewrite B.
      destruct (Nat.leb_spec (cur_chain it) h) as [L|L]; [|reflexivity]. exfalso.
      assert (h < size t). { rewrite (Forall2_length' _ _ _ (r_ep _ _ _ _ R)). eauto using nth_error_lt. }
      rewrite (H2 h) in Eh by (rewrite H3; cbn; lia). injection Eh as <-. contradiction.
    + rewrite H3. cbn. split; [split; cbn; [lia|auto]|]. split; lia.
  - exists (fne t (S (cur_chain it1))).
    assert (Hc : S (cur_chain it1) <= size t) by lia.
    destruct (fne_spec t css fl _ R Hc) as (G1 & G2 & _).
    split; [|split; [exact (fne_kept t css fl _ R Hc)|lia]].
    assert (Q : it1 = mk_iter (cur_chain it1) (Some i)) by (destruct it1; cbn in *; congruence).
    rewrite Q at 1.
    rewrite (visit_spec t css fl (cur_chain it1) R r [] i (fuel_of t) C Ec).
    2: { pose proof (rep_len_chain _ _ _ _ _ _ R Ec) as L. cbn in L. unfold fuel_of. lia. }
    f_equal. f_equal. symmetry. apply (filter_chains t _ css (cur_chain it1) (i :: r)); [|exact Ec].
    intros h c Eh. destruct (Nat.eqb_spec h (cur_chain it1)) as [->|N].
    + apply filter_all. intros d I. unfold between. rewrite (in_els t css fl _ _ d R Eh I).
      destruct (Nat.leb_spec (cur_chain it) (cur_chain it1)); [|lia].
      destruct (Nat.ltb_spec (cur_chain it1) (cur_chain (fne t (S (cur_chain it1))))); [reflexivity|lia].
    + apply filter_none. intros d I. unfold between. rewrite (in_els t css fl _ _ d R Eh I).
      destruct (Nat.leb_spec (cur_chain it) h) as [A|A]; [|reflexivity].
      destruct (Nat.ltb_spec h (cur_chain (fne t (S (cur_chain it1))))) as [B|B]; [|reflexivity]. exfalso.
      assert (Z : nth_error css h = Some []).
      { destruct (Nat.lt_ge_cases h (cur_chain it1)); [apply H2; lia|apply G2; lia]. }
      rewrite Z in Eh. injection Eh as <-. contradiction.
Qed.

(** Sizes: only add and addOrReplace enlarge the table, and only reserve can shrink it. *)
Lemma put_length {A} (l l' : list A) i a : put l i a = Ok l' -> length l' = length l.
Proof. unfold put. destruct (i <? length l); [|discriminate]. intros E. injection E as <-. apply length_upd. Qed.
Ltac step_bind H :=
  match type of H with
  | bind ?x _ = Ok _ => let E := fresh "E" in destruct x eqn:E; cbn [bind] in H; try discriminate H
  end.
Lemma relink_length : forall todo cs ep sz cs' ep', relink_all hashfn todo cs ep sz = Ok (cs', ep') -> length ep' = length ep.
Proof.
  induction todo as [|i todo IH]; intros cs ep sz cs' ep' H; cbn [relink_all] in H.
  - injection H as <- <-. reflexivity.
  - step_bind H. destruct a as [cs1 ep1]. apply IH in H. rewrite H. clear H IH.
    unfold relink in E. step_bind E. destruct a as [d n]. step_bind E. step_bind E. step_bind E.
    injection E as <- <-. exact (put_length _ _ _ _ E3).
Qed.
Lemma resize_grows t t' : resizeHashTable hashfn t = Ok t' -> size t < size t'.
Proof.
  intros H. unfold resizeHashTable in H. step_bind H.
  destruct (scan_gt (N.of_nat (size t))) as [(p & Ep & Hp)|(Ep & _)]; rewrite Ep in H; cbn [bind] in H; [|discriminate].
  step_bind H. destruct a0 as [cs ep]. injection H as <-. cbn [entry_points].
  apply relink_length in E0. rewrite E0, repeat_length. lia.
Qed.
Lemma add_grows t d t' i : internalAdd hashfn t d = Ok (t', i) -> size t <= size t'.
Proof.
  intros H. unfold internalAdd in H. step_bind H.
  assert (G : size t <= size a).
  { destruct (free_list t); [injection E as <-; lia|]. destruct (overfull t); [apply resize_grows in E; lia|injection E as <-; lia]. }
  step_bind H. step_bind H. destruct (free_list a).
  - step_bind H. destruct a2 as [d0 n0]. step_bind H. step_bind H. injection H as <- _. cbn [entry_points].
    rewrite (put_length _ _ _ _ E4). exact G.
  - step_bind H. injection H as <- _. cbn [entry_points]. rewrite (put_length _ _ _ _ E2). exact G.
Qed.
Lemma to_free_size (t : ht) cs ep loc t' : to_free_list default t cs ep loc = Ok t' -> size t' = length ep.
Proof. unfold to_free_list. intros H. step_bind H. injection H as <-. reflexivity. Qed.
Lemma remove_loop_size k must : forall fuel (t : ht) prev t' b,
  remove_loop equal default fuel t k must prev = Ok (t', b) -> size t' = size t.
Proof.
  induction fuel as [|fuel IH]; intros t prev t' b H; cbn [remove_loop] in H; [discriminate|].
  step_bind H. destruct a as [pd [l|]]; [|destruct must; [discriminate|injection H as <- _; reflexivity]].
  step_bind H. destruct a as [d n]. destruct (equal k d); [|exact (IH _ _ _ _ H)].
  step_bind H. step_bind H. injection H as <- _. exact (to_free_size _ _ _ _ _ E2).
Qed.
Lemma remove_size (t : ht) k must t' b : ht_remove hashfn equal default t k must = Ok (t', b) -> size t' = size t.
Proof.
  intros H. unfold ht_remove in H.
  destruct (size t =? 0); [destruct must; [discriminate|injection H as <- _; reflexivity]|].
  step_bind H. destruct a as [loc|]; [|destruct must; [discriminate|injection H as <- _; reflexivity]].
  step_bind H. destruct a as [d n]. destruct (equal k d); [|exact (remove_loop_size _ _ _ _ _ _ _ H)].
  step_bind H. step_bind H. injection H as <- _. rewrite (to_free_size _ _ _ _ _ E2). exact (put_length _ _ _ _ E1).
Qed.
Lemma erase_size (t : ht) it t' : ht_erase default t it = Ok t' -> size t' = size t.
Proof.
  intros H. unfold ht_erase in H. destruct (chain_loc it) as [loc|]; [|discriminate].
  step_bind H. destruct a as [d n]. step_bind H. step_bind H. destruct a0 as [p|].
  - step_bind H. destruct a0 as [pd n']. step_bind H. exact (to_free_size _ _ _ _ _ H).
  - step_bind H. rewrite (to_free_size _ _ _ _ _ H). exact (put_length _ _ _ _ E2).
Qed.
Lemma erase_if_size p : forall fuel (t : ht) it l t', erase_if_loop default fuel p t it = Ok (l, t') -> size t' = size t.
Proof.
  induction fuel as [|fuel IH]; intros t it l t' H; cbn [erase_if_loop] in H;
    (destruct (it_eqb it (ht_end t)); [injection H as _ <-; reflexivity|]); [discriminate|].
  step_bind H. step_bind H. step_bind H. step_bind H. destruct a2 as [r t2]. injection H as _ <-.
  rewrite (IH _ _ _ _ E2). destruct (p a); [exact (erase_size _ _ _ E1)|injection E1 as <-; reflexivity].
Qed.
Definition reserves (o : top D) : bool := match o with TReserve _ => true | _ => false end.
Definition grows (o : top D) : bool := match o with TAdd _ | TAddOrReplace _ | TReserve _ => true | _ => false end.
Lemma step_grows (t : ht) o t' out : ht_step hashfn equal default t o = Ok (t', out) ->
  (reserves o = false -> size t <= size t') /\ (grows o = false -> size t' = size t).
Proof.
  intros H. destruct o; cbn [ht_step reserves grows] in *.
  - step_bind H. destruct a as [t1 i]. step_bind H. injection H as <- _. apply add_grows in E. split; [auto|discriminate].
  - step_bind H. destruct a as [[t1 i] b]. step_bind H. injection H as <- _. split; [intros _|discriminate].
    unfold ht_addOrReplace in E. step_bind E. destruct a0; [injection E as <- _ _; lia|].
    step_bind E. destruct a0 as [t2 j]. injection E as <- _ _. exact (add_grows _ _ _ _ E2).
  - step_bind H. step_bind H. injection H as <- _. auto.
  - step_bind H. destruct a as [t1 b]. injection H as <- _. rewrite (remove_size _ _ _ _ _ E). auto.
  - step_bind H. destruct (it_eqb a (ht_end t)); [injection H as <- _; auto|].
    step_bind H. step_bind H. injection H as <- _. rewrite (erase_size _ _ _ E1). auto.
  - step_bind H. destruct a as [l t1]. injection H as <- _. rewrite (erase_if_size _ _ _ _ _ _ E). auto.
  - injection H as <- _. unfold ht_clear. cbn [entry_points]. rewrite map_length. auto.
  - split; discriminate.
  - injection H as <- _. auto.
  - step_bind H. injection H as <- _. auto.
  - step_bind H. injection H as <- _. auto.
  - step_bind H. step_bind H. injection H as <- _. auto.
Qed.
Lemma exec_grows : forall ops (t t' : ht), ht_exec hashfn equal default t ops = Ok t' ->
  (existsb reserves ops = false -> size t <= size t') /\ (existsb grows ops = false -> size t' = size t).
Proof.
  induction ops as [|o ops IH]; intros t t' H; cbn [ht_exec existsb] in *.
  - injection H as <-. auto.
  - step_bind H. destruct a as [t1 out]. destruct (step_grows _ _ _ _ E) as [G1 G2]. destruct (IH _ _ H) as [I1 I2].
    split; intros B; apply orb_false_elim in B as [B1 B2].
    + specialize (G1 B1). specialize (I1 B2). lia.
    + rewrite (I2 B2), (G2 B1). reflexivity.
Qed.

(** Scans *)
Hypothesis EH : forall a b, equal a b = true -> hashfn a = hashfn b.
Notation reachable := (reachable hashfn equal default).
Lemma exec_app : forall ops1 ops2 (t t1 : ht), ht_exec hashfn equal default t ops1 = Ok t1 ->
  ht_exec hashfn equal default t (ops1 ++ ops2) = ht_exec hashfn equal default t1 ops2.
Proof.
  induction ops1 as [|o ops1 IH]; intros ops2 t t1 H; cbn [ht_exec app] in *.
  - injection H as <-. reflexivity.
  - step_bind H. destruct a as [t2 out]. cbn [bind]. exact (IH _ _ _ H).
Qed.
Lemma reachable_exec t ops t' : reachable t -> ht_exec hashfn equal default t ops = Ok t' -> reachable t'.
Proof.
  intros (num & den & t0 & ops0 & E & X) H. exists num, den, t0, (ops0 ++ ops). split; [exact E|].
  rewrite (exec_app _ _ _ _ X). exact H.
Qed.
(** Tables that never have fewer chains than the one before *)
Fixpoint rising (n : nat) (tabs : list ht) : Prop :=
  match tabs with [] => True | t :: r => n <= size t /\ rising (size t) r end.
Inductive trace : iter -> list (ht * list D) -> iter -> Prop :=
| trace_nil it : trace it [] it
| trace_cons it t l it1 rest it2 :
    ht_iterate t = Ok l -> kept (size t) it1 -> cur_chain it <= cur_chain it1 ->
    (cur_chain it < size t -> cur_chain it < cur_chain it1) -> trace it1 rest it2 ->
    trace it ((t, filter (between t (cur_chain it) (cur_chain it1)) l) :: rest) it2.
Lemma scan_trace : forall batches (t : ht) it tabs, reachable t -> kept (size t) it ->
  tables hashfn equal default t batches = Ok tabs -> rising (size t) tabs ->
  exists rows it', scan hashfn equal default t it batches = Ok (rows, it') /\ trace it rows it' /\ map fst rows = tabs.
Proof.
  induction batches as [|ops batches IH]; intros t it tabs HR K T S; cbn [tables scan] in *.
  - injection T as <-. exists [], it. split; [reflexivity|]. split; [constructor|reflexivity].
  - step_bind T. cbn [bind]. pose proof (reachable_exec _ _ _ HR E) as HR1.
    step_bind T. injection T as <-. cbn [rising] in S. destruct S as [S1 S2].
    destruct (reachable_live hashfn equal default EH a HR1) as (l & L).
    destruct (turn_spec a l it L (kept_more _ _ _ K S1)) as (it1 & T1 & K1 & C1 & C2).
    rewrite T1. cbn [bind].
    destruct (IH a it1 a0 HR1 K1 E0 S2) as (rows & it' & X & Tr & M). rewrite X. cbn [bind].
    do 2 eexists. split; [reflexivity|]. split; [|cbn; congruence].
    eapply trace_cons; eauto. exact (ht_iterate_spec hashfn a l L).
Qed.
Lemma begin_kept t : reachable t -> kept (size t) (ht_begin t 0).
Proof.
  intros HR. destruct (reachable_live hashfn equal default EH t HR) as (l & css & fl & R & _).
  exact (fne_kept t css fl 0 R ltac:(lia)).
Qed.
Lemma begin_before t l d : reachable t -> ht_iterate t = Ok l -> In d l -> cur_chain (ht_begin t 0) <= bkt t d.
Proof.
  intros HR E I. destruct (reachable_live hashfn equal default EH t HR) as (ll & L).
  rewrite (ht_iterate_spec hashfn t ll L) in E. injection E as <-. destruct L as (css & fl & R & ->).
  apply in_map_iff in I as ([k d'] & <- & I). apply in_live_of in I as (I & n & En).
  apply in_concat_ex in I as (h & c & Eh & I). cbn [snd].
  rewrite (r_hash _ _ _ _ R h c k d' n Eh I En).
  destruct (fne_spec t css fl 0 R ltac:(lia)) as (_ & H & _). change (fne t 0) with (ht_begin t 0) in H.
  destruct (Nat.le_gt_cases (cur_chain (ht_begin t 0)) h) as [|B]; [assumption|]. exfalso.
  rewrite (H h) in Eh by lia. injection Eh as <-. contradiction.
Qed.
Lemma bucket_in t l d : reachable t -> ht_iterate t = Ok l -> In d l -> bkt t d < size t.
Proof.
  intros HR E I. destruct (reachable_live hashfn equal default EH t HR) as (ll & L).
  rewrite (ht_iterate_spec hashfn t ll L) in E. injection E as <-. destruct L as (css & fl & R & ->).
  apply in_map_iff in I as ([k d'] & <- & I). apply in_live_of in I as (I & n & En).
  apply in_concat_ex in I as (h & c & Eh & I). cbn [snd].
  rewrite (r_hash _ _ _ _ R h c k d' n Eh I En). rewrite (Forall2_length' _ _ _ (r_ep _ _ _ _ R)). eauto using nth_error_lt.
Qed.
Lemma trace_le it rows it' : trace it rows it' -> cur_chain it <= cur_chain it'.
Proof. induction 1; lia. Qed.
Lemma trace_visits it rows it' n : trace it rows it' -> (forall t v, In (t, v) rows -> size t = n) ->
  forall t v d, In (t, v) rows -> In d v -> cur_chain it <= bucket_of hashfn n d.
Proof.
  induction 1 as [|it t l it1 rest it2 E K C1 C2 T IH]; intros S t0 v d I Id; [contradiction|].
  destruct I as [I|I].
  - injection I as <- <-. apply filter_In in Id as [_ B]. unfold between in B.
    rewrite (S t _ (or_introl eq_refl)) in B. apply andb_prop in B as [B _]. apply Nat.leb_le in B. exact B.
  - specialize (IH (fun a b J => S a b (or_intror J)) t0 v d I Id). lia.
Qed.
Lemma trace_disjoint it rows it' n : trace it rows it' -> (forall t v, In (t, v) rows -> size t = n) ->
  forall i j t1 v1 t2 v2 d1 d2, i < j -> nth_error rows i = Some (t1, v1) -> nth_error rows j = Some (t2, v2) ->
  In d1 v1 -> In d2 v2 -> bucket_of hashfn n d1 < bucket_of hashfn n d2.
Proof.
  induction 1 as [|it t l it1 rest it2 E K C1 C2 T IH]; intros S i j t1 v1 t2 v2 d1 d2 L Ei Ej I1 I2; [destruct i; discriminate|].
  destruct j as [|j]; [lia|]. cbn in Ej. destruct i as [|i].
  - cbn in Ei. injection Ei as <- <-. apply filter_In in I1 as [_ B]. unfold between in B.
    rewrite (S t _ (or_introl eq_refl)) in B. apply andb_prop in B as [_ B]. apply Nat.ltb_lt in B.
    pose proof (trace_visits it1 rest it2 n T (fun a b J => S a b (or_intror J)) t2 v2 d2 (nth_error_In _ _ Ej) I2). lia.
  - apply (IH (fun a b J => S a b (or_intror J)) i j t1 v1 t2 v2 d1 d2); auto. lia.
Qed.
Lemma trace_covers it rows it' n d : trace it rows it' -> (forall t v, In (t, v) rows -> size t = n) ->
  (forall t v, In (t, v) rows -> exists l, ht_iterate t = Ok l /\ In d l) ->
  cur_chain it <= bucket_of hashfn n d < cur_chain it' -> exists t v, In (t, v) rows /\ In d v.
Proof.
  induction 1 as [|it t l it1 rest it2 E K C1 C2 T IH]; intros S P B; [lia|].
  destruct (Nat.lt_ge_cases (bucket_of hashfn n d) (cur_chain it1)) as [A|A].
  - do 2 eexists. split; [left; reflexivity|]. apply filter_In.
    destruct (P t _ (or_introl eq_refl)) as (l' & El & I). rewrite E in El. injection El as <-. split; [exact I|].
    unfold between. rewrite (S t _ (or_introl eq_refl)). apply andb_true_intro. split; [apply Nat.leb_le|apply Nat.ltb_lt]; lia.
  - destruct (IH (fun a b J => S a b (or_intror J)) (fun a b J => P a b (or_intror J)) ltac:(lia)) as (t0 & v & I & Id).
    exists t0, v. split; [right; exact I|exact Id].
Qed.
Lemma trace_ends it rows it' n : trace it rows it' -> (forall t v, In (t, v) rows -> size t = n) ->
  Nat.min n (cur_chain it + length rows) <= cur_chain it'.
Proof.
  induction 1 as [|it t l it1 rest it2 E K C1 C2 T IH]; intros S; cbn [length]; [lia|].
  specialize (IH (fun a b J => S a b (or_intror J))). rewrite (S t _ (or_introl eq_refl)) in C2. lia.
Qed.
Lemma trace_kept it rows it' n : trace it rows it' -> (forall t v, In (t, v) rows -> size t = n) -> kept n it -> kept n it'.
Proof.
  induction 1 as [|it t l it1 rest it2 E K C1 C2 T IH]; intros S K0; [exact K0|].
  apply (IH (fun a b J => S a b (or_intror J))). rewrite (S t _ (or_introl eq_refl)) in K. exact K.
Qed.
Lemma trace_rows it rows it' : trace it rows it' -> forall t v, In (t, v) rows ->
  exists l P, ht_iterate t = Ok l /\ v = filter P l.
Proof.
  induction 1 as [|it t l it1 rest it2 E K C1 C2 T IH]; intros t0 v I; [contradiction|].
  destruct I as [I|I]; [|eauto]. injection I as <- <-. eauto.
Qed.
End P.
