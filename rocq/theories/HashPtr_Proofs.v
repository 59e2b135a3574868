(** Proofs about pointers into a HashTable. *)
From Coq Require Import List Arith NArith Lia Bool Permutation.
From Verif Require Import Common CommonFacts HashTable_Model HashTable_Spec HashTable_Proofs HashTable_Refine HashTable_Facts HashPtr_Model HashPtr_Spec.
Import ListNotations.

Section P.
Context {D : Type}.
Variable hashfn : D -> N.
Variable equal : D -> D -> bool.
Variable default : D.
Variable grow : nat -> nat.
Hypothesis EH : forall a b, equal a b = true -> hashfn a = hashfn b.
Hypothesis GR : forall n, n < grow n.
Notation Live := (Live hashfn).

Ltac stp H :=
  match type of H with
  | bind ?x _ = Ok _ => let E := fresh "E" in let a := fresh "a" in destruct x as [a| | |] eqn:E; try discriminate H; cbn [bind] in H
  end.

Lemma add_keep (t : ht D) l d t' i : Live t l -> internalAdd hashfn t d = Ok (t', i) ->
  exists l', Live t' l' /\ Permutation l' ((i, d) :: l)
    /\ (length (chains t') = length (chains t) \/ (length (chains t') = S (length (chains t)) /\ ht_size t' = length (chains t'))).
Proof.
  intros L H. destruct (internalAdd_spec hashfn t l d L) as [(t1 & l1 & i1 & E & L1 & P & Len & _)|[E _]]; rewrite E in H; [|discriminate].
  injection H as <- <-. exists l1. split; [exact L1|]. split; [exact P|].
  destruct (Nat.eq_dec (length (chains t1)) (length (chains t))) as [Q|Q]; [left; exact Q|right]. split; [lia|].
  destruct (Live_size hashfn t l L) as [S0 _]. destruct (Live_size hashfn t1 l1 L1) as [S1 _].
  rewrite S1, (Permutation_length P). cbn [length]. rewrite <- S0.
  assert (F : free_list t = None).
  { destruct (free_list t) as [loc|] eqn:F; [|reflexivity]. exfalso. apply Q.
    unfold internalAdd in E. rewrite F in E. cbn [bind] in E. stp E. stp E. rewrite F in E. stp E.
    destruct a1 as [d0 n0]. stp E. stp E. injection E as <- _. cbn [chains]. unfold put in E3.
    destruct (loc <? length (chains t)); [|discriminate]. injection E3 as <-. apply length_upd. }
  destruct L as (css & fl & R & _). pose proof (r_fls _ _ _ _ R) as Fs. pose proof (r_fl _ _ _ _ R) as Fp. rewrite F in Fp.
  inversion Fp; subst. cbn in Fs. unfold ht_size. rewrite <- Fs. lia.
Qed.

Lemma step_keep (t : ht D) l o t' out : Live t l -> ht_step hashfn equal default t o = Ok (t', out) ->
  exists l', Live t' l' /\ (forall i d, In (i, d) l -> spares equal o d -> In (i, d) l')
    /\ (length (chains t') <= length (chains t) \/ (length (chains t') = S (length (chains t)) /\ ht_size t' = length (chains t'))).
Proof.
  intros L H.
  assert (Same : forall t', t' = t -> exists l', Live t' l' /\ (forall i d, In (i, d) l -> spares equal o d -> In (i, d) l')
    /\ (length (chains t') <= length (chains t) \/ (length (chains t') = S (length (chains t)) /\ ht_size t' = length (chains t')))).
  { intros t1 ->. exists l. split; [exact L|]. split; [auto|left; lia]. }
  assert (Add : forall t1 i d0, internalAdd hashfn t d0 = Ok (t1, i) -> t1 = t' ->
    exists l', Live t' l' /\ (forall i d, In (i, d) l -> spares equal o d -> In (i, d) l')
    /\ (length (chains t') <= length (chains t) \/ (length (chains t') = S (length (chains t)) /\ ht_size t' = length (chains t')))).
  { intros t1 i d0 E <-. destruct (add_keep _ _ _ _ _ L E) as (l1 & L1 & P & Q). exists l1. split; [exact L1|].
    split; [|destruct Q; [left; lia|right; assumption]].
    intros j d I _. apply (Permutation_in _ (Permutation_sym P)). right. exact I. }
  destruct o; cbn [ht_step] in H.
  - stp H. destruct a as [t1 i]. stp H. injection H as <- _. exact (Add _ _ _ E eq_refl).
  - stp H. destruct a as [[t1 i] b]. stp H. injection H as <- _. unfold ht_addOrReplace in E. stp E.
    destruct a0; [injection E as <- _ _; apply Same; reflexivity|]. stp E. destruct a0 as [t2 j]. injection E as <- _ _.
    exact (Add _ _ _ E2 eq_refl).
  - stp H. stp H. injection H as <- _. apply Same. reflexivity.
  - stp H. destruct a as [t1 b]. injection H as <- _.
    destruct (ht_remove_spec hashfn equal default t l k must EH L) as [(t2 & l2 & i & d & E2 & L2 & P & Q & K)|[E2 _]]; rewrite E2 in E.
    + injection E as <- <-. exists l2. split; [exact L2|]. destruct K as (_ & K & _). split; [|left; lia].
      intros j d0 I S. apply (Permutation_in _ P) in I as [I|I]; [|exact I]. injection I as -> ->. cbn in S. congruence.
    + destruct must; [discriminate|]. injection E as <- _. apply Same. reflexivity.
  - destruct (ht_find_erase_spec hashfn equal default t l k EH L)
      as [(it & t2 & l2 & i & d & E1 & E2 & E3 & E4 & L2 & P & Q & K)|(it & E1 & E2 & _)]; rewrite E1 in H; cbn [bind] in H; rewrite E2 in H.
    + rewrite E3 in H. cbn [bind] in H. rewrite E4 in H. cbn [bind] in H. injection H as <- _.
      exists l2. split; [exact L2|]. destruct K as (_ & K & _). split; [|left; lia].
      intros j d0 I S. apply (Permutation_in _ P) in I as [I|I]; [|exact I]. injection I as -> ->. cbn in S. congruence.
    + injection H as <- _. apply Same. reflexivity.
  - destruct (ht_erase_if_spec hashfn default p t l L) as (t2 & l2 & E & L2 & K & P). rewrite E in H. cbn [bind] in H.
    injection H as <- _. exists l2. split; [exact L2|]. destruct K as (_ & K & _). split; [|left; lia].
    intros j d0 I S. apply (Permutation_in _ P) in I. apply in_app_or in I as [I|I]; [|exact I].
    apply filter_In in I as [_ I]. cbn in I, S. congruence.
  - injection H as <- _. exists []. split; [exact (ht_clear_spec hashfn t l L)|]. split; [intros i d _ []|left; cbn; lia].
  - destruct (ht_reserve_spec hashfn t l n L) as [(t2 & E & -> & L2 & C & C2 & _)|[E _]]; rewrite E in H; [|discriminate].
    injection H as <- _. exists []. split; [exact L2|]. split; [intros i d []|left; rewrite C2; cbn; lia].
  - injection H as <- _. apply Same. reflexivity.
  - stp H. injection H as <- _. apply Same. reflexivity.
  - stp H. injection H as <- _. apply Same. reflexivity.
  - stp H. stp H. injection H as <- _. apply Same. reflexivity.
Qed.

(** The element [d] is in slot [i] *)
Definition holds (s : vt D) (l : list (nat * D)) : Prop := Live (vtab s) l /\ length (chains (vtab s)) <= vcap s.
Lemma pushed_holds (s : vt D) l (t : ht D) l' : holds s l -> Live t l' -> length (chains t) <= S (length (chains (vtab s))) ->
  holds (pushed grow s t) l' /\ vcap s <= vcap (pushed grow s t) /\ vtab (pushed grow s t) = t
  /\ (length (chains t) <= vcap s -> vstore (pushed grow s t) = vstore s).
Proof.
  intros [_ C] L Q. unfold pushed. pose proof (GR (vcap s)) as G.
  destruct (Nat.ltb_spec (vcap s) (length (chains t))); cbn [vtab vcap vstore holds]; unfold holds; cbn [vtab vcap].
  - split; [split; [exact L|lia]|]. split; [lia|]. split; [reflexivity|lia].
  - split; [split; [exact L|lia]|]. auto.
Qed.
Lemma vstep_keep s l o s' out : holds s l -> vstep hashfn equal default grow s o = Ok (s', out) ->
  exists l', holds s' l' /\ vcap s <= vcap s' /\ (forall i d, In (i, d) l -> spares equal o d -> In (i, d) l')
    /\ (l <> [] -> ht_size (vtab s') <= vcap s -> vstore s' = vstore s).
Proof.
  intros Hs H. unfold vstep in H. stp H. destruct a as [t1 out1]. injection H as <- <-.
  destruct (step_keep _ _ _ _ _ (proj1 Hs) E) as (l1 & L1 & K & Q).
  assert (Pu : exists l', holds (pushed grow s t1) l' /\ vcap s <= vcap (pushed grow s t1)
    /\ (forall i d, In (i, d) l -> spares equal o d -> In (i, d) l')
    /\ (l <> [] -> ht_size (vtab (pushed grow s t1)) <= vcap s -> vstore (pushed grow s t1) = vstore s)).
  { exists l1. destruct (pushed_holds s l t1 l1 Hs L1 ltac:(lia)) as (A & B & C & F).
    split; [exact A|]. split; [exact B|]. split; [exact K|]. intros _ Z. apply F. rewrite C in Z. destruct Hs as [_ Hc].
    destruct Q as [Q|[Q1 Q2]]; lia. }
  destruct o; try exact Pu. clear Pu.
  cbn [ht_step] in E. destruct (ht_reserve_spec hashfn (vtab s) l n (proj1 Hs)) as [(t2 & E2 & -> & L2 & C & C2 & _)|[E2 _]]; rewrite E2 in E; [|discriminate].
  injection E as <- _. exists []. unfold reserved, holds.
  destruct (N.ltb_spec (N.of_nat (vcap s)) n); cbn [vtab vcap vstore]; rewrite C2; cbn [length].
  - split; [split; [exact L2|lia]|]. split; [lia|]. split; [auto|]. intros Q'; contradiction.
  - split; [split; [exact L2|lia]|]. split; [lia|]. split; auto.
Qed.

Lemma vderef_holds s l i d : holds s l -> In (i, d) l -> vderef s (mk_ptr (vstore s) i) = Ok d.
Proof.
  intros [L _] I. destruct (Live_get hashfn _ _ _ _ L I) as (n & E). unfold vderef, at_ptr. cbn [p_store p_slot].
  rewrite Nat.eqb_refl. unfold deref. rewrite (get_Some _ _ _ E). reflexivity.
Qed.
Lemma vlookup_holds s l k p : holds s l -> vlookup hashfn equal s k = Ok (Some p) ->
  exists i d, p = mk_ptr (vstore s) i /\ In (i, d) l /\ equal k d = true.
Proof.
  intros [L _] H. unfold vlookup in H.
  destruct (ht_lookup_live hashfn equal _ _ k EH L) as [(i & d & E & I & Q)|[E _]]; rewrite E in H; cbn [bind] in H; [|discriminate].
  injection H as <-. eauto.
Qed.
Lemma vwrite_keep s l i d d' s' : holds s l -> In (i, d) l -> hashfn d' = hashfn d ->
  vwrite s (mk_ptr (vstore s) i) d' = Ok s' ->
  exists l1 l2, l = l1 ++ (i, d) :: l2 /\ holds s' (l1 ++ (i, d') :: l2) /\ vcap s' = vcap s /\ vstore s' = vstore s.
Proof.
  intros [L C] I Hh W. destruct (set_data_live hashfn _ _ _ _ d' L I Hh) as (t' & l1 & l2 & E & El & L' & Len & _).
  unfold vwrite in W. cbn [p_store p_slot] in W. rewrite Nat.eqb_refl in W. unfold set_data in E.
  destruct (get (chains (vtab s)) i) as [[d0 n0]| | |]; try discriminate. cbn [bind] in *.
  destruct (put (chains (vtab s)) i (d', n0)) as [cs| | |]; try discriminate. cbn [bind] in *.
  injection W as <-. injection E as <-. exists l1, l2. split; [exact El|]. unfold holds. cbn [vtab vcap vstore chains].
  cbn [chains] in Len. split; [split; [exact L'|lia]|auto].
Qed.

Lemma run_holds s prog s' : run hashfn equal default grow s prog s' -> forall l, holds s l -> exists l', holds s' l' /\ vcap s <= vcap s'.
Proof.
  induction 1 as [s|s o s1 out prog s2 E R IH|s p k d0 d s1 prog s2 Lk Dr Sk W R IH]; intros l Hl.
  - eauto.
  - destruct (vstep_keep _ _ _ _ _ Hl E) as (l1 & H1 & C & _). destruct (IH _ H1) as (l2 & H2 & C2). exists l2. split; [exact H2|lia].
  - destruct (vlookup_holds _ _ _ _ Hl Lk) as (i & d1 & -> & I & _).
    rewrite (vderef_holds _ _ _ _ Hl I) in Dr. injection Dr as ->.
    destruct (vwrite_keep _ _ _ _ _ _ Hl I (proj1 Sk) W) as (l1 & l2 & _ & H1 & C & _).
    destruct (IH _ H1) as (l3 & H3 & C3). exists l3. split; [exact H3|lia].
Qed.
Lemma vreachable_holds s : vreachable hashfn equal default grow s -> exists l, holds s l.
Proof.
  intros (num & den & s0 & prog & E & R). unfold vnew in E.
  destruct (ht_new num den) as [t| | |] eqn:N; try discriminate. cbn [bind] in E. injection E as <-.
  assert (H0 : holds (mk_vt t 0 0) []).
  { unfold holds. cbn [vtab vcap]. unfold ht_new in N. destruct ((0 <? num) && (0 <? den)) eqn:B; [|discriminate].
    injection N as <-. apply andb_prop in B as [B1 B2]. apply Nat.ltb_lt in B1, B2. split; [|cbn; lia].
    apply (empty_rep hashfn [] num den B1 B2). constructor. }
  destruct (run_holds _ _ _ R _ H0) as (l & H & _). eauto.
Qed.
Lemma obtained_holds s p d : obtained hashfn equal default grow s p d ->
  exists l i, holds s l /\ p = mk_ptr (vstore s) i /\ In (i, d) l.
Proof.
  destruct 1 as [s d s' p V E|s d s' p V E|s d s' p d' V E Dr|s k p d V E Dr]; destruct (vreachable_holds _ V) as (l & Hl).
  - unfold vadd in E. stp E. destruct a as [t i]. injection E as <- <-.
    destruct (add_keep _ _ _ _ _ (proj1 Hl) E0) as (l1 & L1 & P & Q).
    destruct (pushed_holds s l t l1 Hl L1 ltac:(lia)) as (A & _).
    exists l1, i. split; [exact A|]. split; [reflexivity|]. apply (Permutation_in _ (Permutation_sym P)). left. reflexivity.
  - unfold vaddOrReplace in E. stp E. destruct a as [[t i] b]. injection E as <- <- ->. unfold ht_addOrReplace in E0.
    stp E0. destruct a; [discriminate|]. stp E0. destruct a as [t2 j]. injection E0 as <- <-.
    destruct (add_keep _ _ _ _ _ (proj1 Hl) E1) as (l1 & L1 & P & Q).
    destruct (pushed_holds s l t2 l1 Hl L1 ltac:(lia)) as (A & _).
    exists l1, j. split; [exact A|]. split; [reflexivity|]. apply (Permutation_in _ (Permutation_sym P)). left. reflexivity.
  - unfold vaddOrReplace in E. stp E. destruct a as [[t i] b]. injection E as <- <- ->. unfold ht_addOrReplace in E0.
    destruct (ht_lookup_live hashfn equal _ _ d EH (proj1 Hl)) as [(j & d1 & Lk & I & Q)|[Lk _]]; rewrite Lk in E0; cbn [bind] in E0.
    + injection E0 as <- <-. destruct (pushed_holds s l (vtab s) l Hl (proj1 Hl) ltac:(lia)) as (A & _).
      exists l, j. split; [exact A|]. split; [reflexivity|]. rewrite (vderef_holds _ _ _ _ A I) in Dr. injection Dr as <-. exact I.
    + stp E0. destruct a as [t2 j]. discriminate.
  - destruct (vlookup_holds _ _ _ _ Hl E) as (i & d1 & -> & I & _). exists l, i. split; [exact Hl|]. split; [reflexivity|].
    rewrite (vderef_holds _ _ _ _ Hl I) in Dr. injection Dr as <-. exact I.
Qed.

(** What the theorem needs of every operation of a program, for the element [d] behind [p] *)
Lemma kept_holds s prog s' : run hashfn equal default grow s prog s' -> forall l i d cap, holds s l -> In (i, d) l -> cap <= vcap s ->
  (forall pre o post, prog = pre ++ CTab o :: post -> spares equal o (last_written (mk_ptr (vstore s) i) d pre)) ->
  (forall pre post s1, prog = pre ++ post -> run hashfn equal default grow s pre s1 -> ht_size (vtab s1) <= cap) ->
  exists l', holds s' l' /\ In (i, last_written (mk_ptr (vstore s) i) d prog) l' /\ vstore s' = vstore s.
Proof.
  induction 1 as [s|s o s1 out prog s2 E R IH|s p k d0 d s1 prog s2 Lk Dr Sk W R IH]; intros l i dd cap Hl I Cap Sp Fit.
  - exists l. auto.
  - destruct (vstep_keep _ _ _ _ _ Hl E) as (l1 & H1 & C & K & G).
    assert (Ne : l <> []) by (intros ->; destruct I).
    assert (St : vstore s1 = vstore s).
    { apply (G Ne). pose proof (Fit [CTab o] prog s1 eq_refl (run_op _ _ _ _ _ _ _ _ _ _ E (run_nil _ _ _ _ _))). lia. }
    pose proof (K i dd I (Sp [] o prog eq_refl)) as I1.
    destruct (IH l1 i dd cap H1 I1 ltac:(lia)) as (l2 & H2 & I2 & St2).
    + rewrite St. intros pre o' post ->. exact (Sp (CTab o :: pre) o' post eq_refl).
    + intros pre post s3 -> R3. exact (Fit (CTab o :: pre) post s3 eq_refl (run_op _ _ _ _ _ _ _ _ _ _ E R3)).
    + rewrite St in I2. exists l2. split; [exact H2|]. split; [exact I2|]. congruence.
  - destruct (vlookup_holds _ _ _ _ Hl Lk) as (j & d1 & -> & J & _).
    rewrite (vderef_holds _ _ _ _ Hl J) in Dr. injection Dr as ->.
    destruct (vwrite_keep _ _ _ _ _ _ Hl J (proj1 Sk) W) as (l1 & l2 & El & H1 & C & St).
    set (dd' := if ptr_eqb (mk_ptr (vstore s) j) (mk_ptr (vstore s) i) then d else dd).
    assert (I1 : In (i, dd') (l1 ++ (j, d) :: l2)).
    { pose proof (Live_perm_nodup hashfn _ _ (proj1 Hl)) as ND. rewrite El in I, ND. unfold dd', ptr_eqb. cbn [p_store p_slot].
      rewrite Nat.eqb_refl. cbn [andb]. destruct (Nat.eqb_spec j i) as [->|Nj].
      - apply in_elt.
      - apply in_app_or in I as [I|[I|I]]; apply in_or_app; [left; exact I| |right; right; exact I]. congruence. }
    destruct (IH _ i dd' cap H1 I1 ltac:(lia)) as (l3 & H3 & I3 & St3).
    + rewrite St. intros pre o' post ->. exact (Sp (CWrite (mk_ptr (vstore s) j) d :: pre) o' post eq_refl).
    + intros pre post s3 -> R3. exact (Fit (CWrite (mk_ptr (vstore s) j) d :: pre) post s3 eq_refl (run_write _ _ _ _ _ _ _ _ _ _ _ _ Lk (vderef_holds _ _ _ _ Hl J) Sk W R3)).
    + rewrite St in I3. exists l3. split; [exact H3|]. split; [exact I3|]. congruence.
Qed.

(** add( *p ) is add of a copy *)
Lemma add_ref s l i d : holds s l -> In (i, d) l ->
  vadd_ref hashfn grow s (mk_ptr (vstore s) i) = vadd hashfn grow s d.
Proof.
  intros Hl I. unfold vadd_ref. rewrite (vderef_holds _ _ _ _ Hl I). cbn [bind]. unfold vadd, ht_add.
  assert (Q : internalAdd_ref hashfn s (mk_ptr (vstore s) i) (hashfn d) = internalAdd hashfn (vtab s) d); [|rewrite Q; reflexivity].
  unfold internalAdd_ref, internalAdd. destruct Hl as [L C].
  assert (At : forall t l', Live t l' -> In (i, d) l' -> at_ptr s t (mk_ptr (vstore s) i) = Ok d).
  { intros t l' L' I'. destruct (Live_get hashfn _ _ _ _ L' I') as (n & E). unfold at_ptr. cbn [p_store p_slot].
    rewrite Nat.eqb_refl. unfold deref. rewrite (get_Some _ _ _ E). reflexivity. }
  destruct (free_list (vtab s)) as [loc|] eqn:F; [cbn [bind]; rewrite (At _ _ L I); unfold bucket_of; reflexivity|].
  destruct (overfull (vtab s)); [|cbn [bind]; rewrite (At _ _ L I); unfold bucket_of; reflexivity].
  destruct L as (css & fl & R & El). pose proof (r_fl _ _ _ _ R) as Fp. rewrite F in Fp. inversion Fp; subst.
  destruct (resize_spec hashfn _ _ R F) as [(t' & css' & E & R' & _ & _ & P & _)|[E _]]; rewrite E; cbn [bind]; [|reflexivity].
  rewrite (At t' _ (ex_intro _ css' (ex_intro _ [] (conj R' eq_refl))) (Permutation_in _ (Permutation_sym P) I)).
  unfold bucket_of. reflexivity.
Qed.
End P.
