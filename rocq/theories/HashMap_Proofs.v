(** HashMap_Model refines HashMap_Spec. *)
From Coq Require Import List Arith NArith Lia Bool Permutation.
From Verif Require Import Common CommonFacts HashTable_Model HashTable_Spec HashTable_Proofs HashTable_Refine HashMap_Spec HashMap_Model.
Import ListNotations.

Lemma nth_error_skipn' {A} (l : list A) : forall c j, nth_error (skipn c l) j = nth_error l (c + j).
Proof. induction l as [|x l IH]; intros [|c] j; cbn [skipn Nat.add nth_error]; auto. now destruct j. Qed.

Lemma find_perm_uniq {A} (f : A -> bool) l x :
  In x l -> f x = true -> (forall y, In y l -> f y = true -> y = x) -> find f l = Some x.
Proof. induction l as [|y l IH]; simpl; intros H Hf Hu; [tauto|].
  destruct (f y) eqn:E.
  - f_equal. apply Hu; auto.
  - apply IH; auto. destruct H as [->|]; auto. congruence. Qed.

Section HMP.
Context {K V : Type}.
Variable khash : K -> N.
Variable keq : K -> K -> bool.
Variable kdef : K.
Variable vdef : V.
Variables num den : nat.
Hypothesis keq_refl : forall a, keq a a = true.
Hypothesis keq_sym : forall a b, keq a b = true -> keq b a = true.
Hypothesis keq_trans : forall a b c, keq a b = true -> keq b c = true -> keq a c = true.
Hypothesis khash_eq : forall a b, keq a b = true -> khash a = khash b.

Notation hm := (hm K V).
Notation vhash := (@vhash K V khash).
Notation vequal := (@vequal K V keq).

Definition uniq (m : list (K * V)) : Prop :=
  forall k, length (filter (fun b => keq k (fst b)) m) <= 1.

Lemma uniq_perm m m' : Permutation m m' -> uniq m -> uniq m'.
Proof. intros P U k. rewrite <- (Permutation_length (filter_perm _ _ _ P)). apply U. Qed.

Lemma uniq_in m k p q : uniq m -> In p m -> In q m -> keq k (fst p) = true -> keq k (fst q) = true -> p = q.
Proof. intros U Hp Hq Ep Eq. specialize (U k).
  assert (Hp' : In p (filter (fun b => keq k (fst b)) m)) by (apply filter_In; auto).
  assert (Hq' : In q (filter (fun b => keq k (fst b)) m)) by (apply filter_In; auto).
  destruct (filter _ m) as [|x [|y r]]; simpl in *; try tauto; [|lia].
  destruct Hp' as [<-|[]], Hq' as [<-|[]]; auto. Qed.

Lemma mfind_some m k b : uniq m -> In b m -> keq k (fst b) = true -> mfind keq k m = Some (snd b).
Proof. intros U Hb E. unfold mfind. rewrite (find_perm_uniq _ m b); auto.
  intros y Hy Ey. eapply uniq_in; eauto. Qed.

Lemma mfind_none (m : list (K * V)) k : (forall b, In b m -> keq k (fst b) = false) -> mfind keq k m = None.
Proof. intros H. unfold mfind. destruct (find _ m) eqn:E; auto.
  apply find_some in E. destruct E as [E1 E2]. rewrite (H _ E1) in E2; discriminate. Qed.

Lemma filter_nil {A} (f : A -> bool) l : (forall x, In x l -> f x = false) -> filter f l = [].
Proof. induction l as [|x l IH]; simpl; intros H; auto. rewrite H by auto. auto. Qed.
Lemma filter_id {A} (f : A -> bool) l : (forall x, In x l -> f x = true) -> filter f l = l.
Proof. induction l as [|x l IH]; simpl; intros H; auto. rewrite H by auto. f_equal; auto. Qed.

Lemma uniq_insert m k v : uniq m -> (forall b, In b m -> keq k (fst b) = false) -> uniq ((k, v) :: m).
Proof. intros U H k'. simpl. destruct (keq k' k) eqn:E; [|apply U].
  rewrite filter_nil; auto. intros b Hb. destruct (keq k' (fst b)) eqn:E'; auto.
  rewrite <- (H b Hb). symmetry. apply keq_trans with k'; auto. Qed.

Lemma uniq_tail b m : uniq (b :: m) -> uniq m /\ forall x, In x m -> keq (fst b) (fst x) = false.
Proof. intros U. split.
  - intros k. specialize (U k). simpl in U. destruct (keq k (fst b)); simpl in U; lia.
  - intros x Hx. destruct (keq (fst b) (fst x)) eqn:E; auto. exfalso.
    specialize (U (fst b)). simpl in U. rewrite keq_refl in U. simpl in U.
    assert (Hx' : In x (filter (fun y => keq (fst b) (fst y)) m)) by (apply filter_In; auto).
    destruct (filter _ m); simpl in *; [tauto|lia]. Qed.

Lemma uniq_filter f m : uniq m -> uniq (filter f m).
Proof. intros U k. specialize (U k). revert U. induction m as [|x m IH]; simpl; auto.
  destruct (keq k (fst x)) eqn:E, (f x) eqn:F; simpl; rewrite ?E; simpl; intros; auto.
  - assert (length (filter (fun b => keq k (fst b)) (filter f m)) <= length (filter (fun b => keq k (fst b)) m)); [|lia].
    clear. induction m as [|y m IH]; simpl; auto. destruct (f y); simpl; destruct (keq k (fst y)); simpl; lia.
  - apply IH. lia. Qed.

(** The relation. [n] bounds the number of insertions so far. *)
Definition RelM (t : hm) (s : mstate K V) (n : nat) : Prop :=
  tcl_num t = num /\ tcl_den t = den /\ length (chains t) <= n
  /\ (ms_virgin s = true <-> chains t = [])
  /\ uniq (ms_map s)
  /\ exists l, Live vhash t l /\ Permutation (map snd l) (ms_map s).

Lemma EHm : forall a b, vequal a b = true -> vhash a = vhash b.
Proof. intros a b; apply khash_eq. Qed.

Lemma RelM_le t s n n' : RelM t s n -> n <= n' -> RelM t s n'.
Proof. intros (A & B & C & E) H. unfold RelM. intuition lia. Qed.

Definition room (n : nat) : Prop := (N.of_nat n * N.of_nat den < N.of_nat num * largest)%N.

Lemma deref_live t l i b : Live vhash t l -> In (i, b) l -> deref t i = Ok b.
Proof. intros L H. unfold deref. destruct (Live_get _ _ _ _ _ L H) as (n & En).
  now rewrite (get_Some _ _ _ En). Qed.

(** Lookup. *)
Lemma hm_lookup_rel t s n k : RelM t s n ->
  (exists i b l, hm_lookup khash keq vdef t k = Ok (Some i) /\ Live vhash t l
      /\ Permutation (map snd l) (ms_map s) /\ In (i, b) l
      /\ keq k (fst b) = true /\ In b (ms_map s)
      /\ mfind keq k (ms_map s) = Some (snd b) /\ hm_read t i = Ok (snd b))
  \/ (hm_lookup khash keq vdef t k = Ok None /\ mfind keq k (ms_map s) = None
      /\ forall b, In b (ms_map s) -> keq k (fst b) = false).
Proof.
  intros (A & B & C & Dv & U & l & L & P). unfold hm_lookup.
  destruct (ht_lookup_live vhash vequal t l (fullval vdef k) EHm L) as [(i & b & E & Hi & Eq)|(E & Hn)].
  - left. exists i, b, l. assert (Hb : In b (ms_map s)) by (eapply in_snd; eauto).
    unfold hm_read. rewrite (deref_live _ _ _ _ L Hi). 
    repeat (split; auto). apply mfind_some; auto.
  - right. assert (Hn' : forall b, In b (ms_map s) -> keq k (fst b) = false).
    { intros b Hb. apply (absent_perm vequal (fullval vdef k) l (ms_map s) P); auto. }
    split; auto. split; auto. now apply mfind_none.
Qed.

(** Insertion of an absent key. *)
Lemma hm_add_rel t s n k v : RelM t s n -> room n ->
  (forall b, In b (ms_map s) -> keq k (fst b) = false) ->
  exists t' i, ht_add vhash t (k, v) = Ok (t', i) /\ hm_read t' i = Ok v
    /\ RelM t' (mk_ms ((k, v) :: ms_map s) false) (S n)
    /\ exists l', Live vhash t' l' /\ In (i, (k, v)) l' /\ Permutation (map snd l') ((k, v) :: ms_map s).
Proof.
  intros (A & B & C & Dv & U & l & L & P) Hroom Hab. unfold ht_add.
  destruct (internalAdd_spec vhash t l (k, v) L) as [(t' & l' & i & E & L' & P' & Hlen & Hpos & Hn & Hd)|(E & F)].
  - assert (Hi : In (i, (k, v)) l') by (eapply Permutation_in; [apply Permutation_sym; exact P'|simpl; auto]).
    assert (P2 : Permutation (map snd l') ((k, v) :: ms_map s)).
    { rewrite P'. simpl. now constructor. }
    exists t', i. split; auto. unfold hm_read. rewrite (deref_live _ _ _ _ L' Hi). split; auto.
    split; [|eauto 6]. unfold RelM; simpl. repeat split; try congruence; try lia.
    + intros E0. rewrite E0 in Hpos; simpl in Hpos; lia.
    + apply uniq_insert; auto.
    + eauto.
  - exfalso. unfold table_full in F. rewrite A, B in F. unfold room in Hroom.
    change max_prime with largest in F.
    assert (N.of_nat (length (chains t)) * N.of_nat den <= N.of_nat n * N.of_nat den)%N by (apply N.mul_le_mono_r; lia).
    lia.
Qed.

(** Writing the value in a slot. *)
Lemma hm_write_rel t s n l i b v : RelM t s n -> Live vhash t l ->
  Permutation (map snd l) (ms_map s) -> In (i, b) l ->
  forall k, keq k (fst b) = true ->
  exists t', hm_write t i v = Ok t' /\ RelM t' (mk_ms (mupdate keq k v (ms_map s)) (ms_virgin s)) n
    /\ exists l', Live vhash t' l' /\ In (i, (fst b, v)) l' /\ Permutation (map snd l') (mupdate keq k v (ms_map s)).
Proof.
  intros (A & B & C & Dv & U & _) L P Hi k Hk.
  destruct (set_data_live vhash t l i b (fst b, v) L Hi) as (t' & l1 & l2 & E & Hl & L' & Hlen & Hn & Hd); [reflexivity|].
  assert (Ew : hm_write t i v = Ok t').
  { unfold hm_write. unfold set_data in E. destruct (Live_get _ _ _ _ _ L Hi) as (nx & En).
    rewrite (get_Some _ _ _ En) in *; cbn [bind] in *. exact E. }
  assert (P2 : Permutation (map snd (l1 ++ (i, (fst b, v)) :: l2)) (mupdate keq k v (ms_map s))).
  { unfold mupdate. rewrite <- P, Hl. rewrite !map_app; simpl. rewrite Hk.
    assert (U' : uniq (map snd l)) by (eapply uniq_perm; [apply Permutation_sym; exact P|exact U]).
    assert (Hother : forall x, In x (map snd l1 ++ map snd l2) -> keq k (fst x) = false).
    { intros x Hx. rewrite Hl in U'. rewrite map_app in U'; simpl in U'.
      assert (U2 := uniq_perm _ _ (Permutation_sym (Permutation_middle _ _ _)) U').
      destruct (uniq_tail _ _ U2) as (_ & Ht). destruct (keq k (fst x)) eqn:Ex; auto.
      rewrite <- (Ht x Hx). symmetry. apply keq_trans with k; auto. }
    assert (Hid : forall ll, (forall x, In x ll -> keq k (fst x) = false) ->
               map (fun b0 : K * V => if keq k (fst b0) then (fst b0, v) else b0) ll = ll).
    { induction ll as [|x ll IH]; simpl; intros H; auto. rewrite H by auto. f_equal; auto. }
    rewrite !Hid; auto; intros x Hx; apply Hother, in_or_app; auto. }
  exists t'. split; auto. split.
  - unfold RelM; simpl. split; [congruence|]. split; [congruence|]. split; [lia|]. split.
    { rewrite Dv. split; intros E0.
      - apply length_zero_iff_nil. rewrite Hlen, E0. reflexivity.
      - apply length_zero_iff_nil. rewrite <- Hlen, E0. reflexivity. }
    split; [|eauto]. intros k'. unfold mupdate. specialize (U k').
    clear - U. induction (ms_map s) as [|x m IH]; simpl in *; auto.
    destruct (keq k (fst x)); simpl; destruct (keq k' (fst x)); simpl in *; try (apply le_n_S, Nat.le_0_r);
      try (apply IH; lia); try lia.
    + assert (X : forall mm, length (filter (fun b0 : K * V => keq k' (fst b0)) (map (fun b0 : K * V => if keq k (fst b0) then (fst b0, v) else b0) mm)) = length (filter (fun b0 : K * V => keq k' (fst b0)) mm)).
      { induction mm as [|y mm IHm]; simpl; auto. destruct (keq k (fst y)); simpl; destruct (keq k' (fst y)); simpl; lia. }
      rewrite X. lia.
    + assert (X : forall mm, length (filter (fun b0 : K * V => keq k' (fst b0)) (map (fun b0 : K * V => if keq k (fst b0) then (fst b0, v) else b0) mm)) = length (filter (fun b0 : K * V => keq k' (fst b0)) mm)).
      { induction mm as [|y mm IHm]; simpl; auto. destruct (keq k (fst y)); simpl; destruct (keq k' (fst y)); simpl; lia. }
      rewrite X. lia.
  - eexists; split; [exact L'|]. split; auto. apply in_or_app; simpl; auto.
Qed.

(** Deletion. *)
Lemma mdelete_perm m b r k : uniq m -> Permutation m (b :: r) -> keq k (fst b) = true -> Permutation r (mdelete keq k m).
Proof.
  intros U P2 Hk. unfold mdelete. rewrite (filter_perm _ _ _ P2). simpl. rewrite Hk. simpl.
  destruct (uniq_tail _ _ (uniq_perm _ _ P2 U)) as (_ & Ht).
  rewrite filter_id; auto. intros x Hx. destruct (keq k (fst x)) eqn:Ex; auto.
  exfalso. assert (Z : keq (fst b) (fst x) = true) by (apply keq_trans with k; auto).
  rewrite (Ht x Hx) in Z; discriminate.
Qed.

Lemma delete_perm t t' s n l' i b k : RelM t s n -> keeps_size t t' -> Live vhash t' l' ->
  (exists l, Live vhash t l /\ Permutation (map snd l) (ms_map s) /\ Permutation l ((i, b) :: l')) ->
  keq k (fst b) = true ->
  RelM t' (mk_ms (mdelete keq k (ms_map s)) (ms_virgin s)) n.
Proof.
  intros (A & B & C & Dv & U & _) (K1 & K2 & K3 & K4) L' (l & L & P & P') Hk.
  unfold RelM; simpl. split; [congruence|]. split; [congruence|]. split; [lia|]. split.
  { rewrite Dv. split; intros E0; apply length_zero_iff_nil; [rewrite K2, E0|rewrite <- K2, E0]; reflexivity. }
  split; [now apply uniq_filter|]. exists l'. split; auto.
  assert (P2 : Permutation (ms_map s) (b :: map snd l')) by (rewrite <- P, P'; reflexivity).
  eapply mdelete_perm; eauto.
Qed.

Lemma hm_remove_rel t s n k must : RelM t s n ->
  (exists t', hm_remove khash keq kdef vdef t k must = Ok (t', true)
     /\ (exists v, mfind keq k (ms_map s) = Some v)
     /\ RelM t' (mk_ms (mdelete keq k (ms_map s)) (ms_virgin s)) n)
  \/ (hm_remove khash keq kdef vdef t k must = (if must then Abort else Ok (t, false))
      /\ mfind keq k (ms_map s) = None).
Proof.
  intros HR. assert (HR' := HR). destruct HR' as (A & B & C & Dv & U & l & L & P). unfold hm_remove.
  destruct (ht_remove_spec vhash vequal (kdef, vdef) t l (fullval vdef k) must EHm L) as [(t' & l' & i & b & E & L' & P' & Eq & Kp)|(E & Hn)].
  - left. exists t'. split; auto. split.
    + exists (snd b). apply mfind_some; auto. eapply in_snd; eauto. eapply Permutation_in; [apply Permutation_sym; exact P'|simpl; auto].
    + eapply delete_perm; eauto.
  - right. split; auto. apply mfind_none. intros b Hb.
    apply (absent_perm vequal (fullval vdef k) l (ms_map s) P); auto.
Qed.

Lemma room_mono n n' : n <= n' -> room n' -> room n.
Proof. unfold room; intros H R. assert (N.of_nat n * N.of_nat den <= N.of_nat n' * N.of_nat den)%N by (apply N.mul_le_mono_r; lia). lia. Qed.

Lemma perm_find_in l (m : list (K * V)) : Permutation l m -> length l = length m.
Proof. apply Permutation_length. Qed.

(** Removing while iterating. *)
Lemma skipn_concat_ge (css : list (list nat)) c h x i : nth_error css h = Some x -> c <= h -> In i x -> In i (concat (skipn c css)).
Proof.
  intros E L Hi. apply in_concat. exists x. split; [|exact Hi]. apply (nth_error_In _ (h - c)).
  rewrite nth_error_skipn'. replace (c + (h - c)) with h by lia. exact E.
Qed.
Lemma prune_loop_rel p : forall fuel t s n css fl it rem, RelM t s n -> rep vhash t css fl -> it_at t css it rem ->
  Permutation (map snd (live_of (chains t) (concat css))) (ms_map s) ->
  (forall i d, In (i, d) (live_of (chains t) (concat css)) -> p (fst d) = true -> In i rem) ->
  length (filter (fun b => p (fst b)) (ms_map s)) * S (length (chains t)) + length rem <= fuel ->
  exists t', prune_loop khash keq kdef vdef fuel p t it = Ok t' /\ RelM t' (mk_ms (filter (fun b => negb (p (fst b))) (ms_map s)) (ms_virgin s)) n.
Proof.
  induction fuel as [|fuel IH]; intros t s n css fl it rem HR R A P HK HF.
  - assert (rem = []) by (apply length_zero_iff_nil; lia). subst rem. exists t. cbn [prune_loop]. rewrite (it_eqb_end _ _ _ _ A). split; [reflexivity|].
    rewrite filter_id; [destruct s; exact HR|]. intros b Hb. apply (Permutation_in _ (Permutation_sym P)) in Hb. apply in_map_iff in Hb. destruct Hb as ((i & d) & <- & Hi). cbn [snd]. destruct (p (fst d)) eqn:Ep; [destruct (HK i d Hi Ep)|reflexivity].
  - destruct rem as [|i rem].
    + exists t. cbn [prune_loop]. rewrite (it_eqb_end _ _ _ _ A). split; [reflexivity|].
      rewrite filter_id; [destruct s; exact HR|]. intros b Hb. apply (Permutation_in _ (Permutation_sym P)) in Hb. apply in_map_iff in Hb. destruct Hb as ((i & d) & <- & Hi). cbn [snd]. destruct (p (fst d)) eqn:Ep; [destruct (HK i d Hi Ep)|reflexivity].
    + cbn [prune_loop]. rewrite (it_eqb_end _ _ _ _ A).
      destruct (it_step _ _ _ _ _ _ _ R A) as (it' & d & nx & Ei & Eloc & E1 & E2 & A' & l0 & l & Ec & Hrem & Hl1 & Hl2).
      rewrite E1. cbn [bind]. destruct (p (fst d)) eqn:Ep.
      * assert (HR' := HR). destruct HR' as (B1 & B2 & B3 & Dv & U & _).
        assert (Hd : In (i, d) (live_of (chains t) (concat css))). { apply in_live_of. split; [|exists nx; exact Ei]. eapply in_concat_nth; [exact Ec|]. apply in_or_app. right. now left. }
        assert (Hdm : In d (ms_map s)) by (eapply Permutation_in; [exact P|]; apply in_map_iff; exists (i, d); auto).
        unfold hm_remove. destruct (ht_remove_spec vhash vequal (kdef, vdef) t _ (fullval vdef (fst d)) true EHm (ex_intro _ css (ex_intro _ fl (conj R eq_refl)))) as [(t' & l' & i' & b & E & L' & P' & Eq & Kp)|(E & Hn)].
        2:{ exfalso. specialize (Hn i d Hd). unfold HashMap_Model.vequal in Hn. cbn [fst fullval] in Hn. rewrite keq_refl in Hn. discriminate. }
        rewrite E. cbn [bind]. unfold HashMap_Model.vequal in Eq. cbn [fst fullval] in Eq.
        assert (HR2 : RelM t' (mk_ms (mdelete keq (fst d) (ms_map s)) (ms_virgin s)) n). { eapply delete_perm; [exact HR|exact Kp|exact L'| |exact Eq]. eexists. split; [exists css, fl; split; [exact R|reflexivity]|]. split; [exact P|exact P']. }
        assert (P2 : Permutation (ms_map s) (b :: map snd l')) by (rewrite <- P, P'; reflexivity).
        assert (Hbd : b = d). { eapply uniq_in; [exact U| |exact Hdm|exact Eq|apply keq_refl]. eapply Permutation_in; [apply Permutation_sym; exact P2|now left]. } subst b.
        destruct L' as (css' & fl' & R2 & ->). assert (Kp' := Kp). destruct Kp' as (K1 & K2 & K3 & K4).
        assert (Hc : cur_chain it < length (entry_points t)). { destruct A as [(_ & C)|(? & ? & ? & C & _)]; [discriminate|exact C]. }
        assert (Ait : exists it2, it_partialReset t' it = Ok it2 /\ it_at t' css' it2 (concat (skipn (cur_chain it) css'))).
        { unfold it_partialReset. destruct (nth_error (entry_points t') (cur_chain it)) as [e|] eqn:Ee; [|apply nth_error_None in Ee; lia].
          eexists. split; [reflexivity|]. pose proof (findNonempty_at vhash t' css' fl' (cur_chain it) R2 ltac:(lia)) as F. clear - F Ee K1 Hc.
          unfold findNonemptyChain in *. cbn [cur_chain chain_loc] in *.
          destruct (nth_error (entry_points t') (skip_empty (length (entry_points t')) (entry_points t') (cur_chain it))) as [e'|] eqn:E2; [exact F|].
          (* only reached when every chain from here on is empty *)
          assert (e = None). { destruct e as [j|]; [|reflexivity]. exfalso. assert (S : skip_empty (length (entry_points t')) (entry_points t') (cur_chain it) = cur_chain it) by (destruct (length (entry_points t')); [reflexivity|]; cbn [skip_empty]; rewrite Ee; reflexivity). rewrite S in E2. congruence. }
          subst e. exact F. }
        destruct Ait as (it2 & Er & A2). rewrite Er. cbn [bind].
        assert (P3 : Permutation (map snd (live_of (chains t') (concat css'))) (mdelete keq (fst d) (ms_map s))) by (eapply mdelete_perm; eauto).
        destruct (IH t' _ n css' fl' it2 (concat (skipn (cur_chain it) css')) HR2 R2 A2 P3) as (t2 & E3 & HR3).
        -- intros j x Hj Hp. assert (Hj0 := Hj). apply in_live_of in Hj. destruct Hj as (Hj & nj & Ej). destruct (in_concat_ex _ _ Hj) as (h & c & Eh & Hjc).
           pose proof (r_hash _ _ _ _ R2 h c j x nj Eh Hjc Ej) as Bh.
           assert (Hjt : In (j, x) (live_of (chains t) (concat css))) by (eapply Permutation_in; [apply Permutation_sym; exact P'|now right]).
           specialize (HK j x Hjt Hp). apply in_live_of in Hjt. destruct Hjt as (Hjt & nj' & Ejt).
           assert (Hge : exists h2 c2, cur_chain it <= h2 /\ nth_error css h2 = Some c2 /\ In j c2).
           { rewrite Hrem in HK. destruct HK as [<-|HK]; [exists (cur_chain it), (l0 ++ i :: l); split; [lia|]; split; [exact Ec|]; apply in_or_app; right; now left|]. apply in_app_or in HK. destruct HK as [HK|HK]; [exists (cur_chain it), (l0 ++ i :: l); split; [lia|]; split; [exact Ec|]; apply in_or_app; right; now right|].
             apply in_concat in HK. destruct HK as (c2 & Hc2 & Hj2). apply In_nth_error in Hc2. destruct Hc2 as (h2 & Eh2). rewrite nth_error_skipn' in Eh2. exists (S (cur_chain it) + h2), c2. split; [lia|]. auto. }
           destruct Hge as (h2 & c2 & Hge & Eh2 & Hj2). pose proof (r_hash _ _ _ _ R h2 c2 j x nj' Eh2 Hj2 Ejt) as Bh2. rewrite K1 in Bh. rewrite Bh in Bh2. subst h2. eapply skipn_concat_ge; eauto.
        -- cbn [ms_map]. rewrite K2.
           assert (LS : length (concat (skipn (cur_chain it) css')) <= length (chains t)). { pose proof (rep_len _ _ _ _ R2) as RL. rewrite <- (firstn_skipn (cur_chain it) css') in RL at 1. rewrite concat_app, app_length in RL. rewrite K2 in RL. lia. }
           assert (LF : S (length (filter (fun b => p (fst b)) (mdelete keq (fst d) (ms_map s)))) = length (filter (fun b => p (fst b)) (ms_map s))).
           { rewrite (Permutation_length (filter_perm (fun b => p (fst b)) _ _ P2)). cbn [filter]. rewrite Ep. cbn [length]. f_equal. apply Permutation_length, filter_perm, Permutation_sym, P3. }
           rewrite <- LF in HF. cbn [length] in HF. nia.
        -- exists t2. split; [exact E3|]. cbn [ms_map ms_virgin] in HR3. destruct HR3 as (C1 & C2 & C3 & C4 & C5 & l3 & C6 & C7).
           split; [exact C1|]. split; [exact C2|]. split; [exact C3|]. split; [exact C4|]. split; [now apply uniq_filter|]. exists l3. split; [exact C6|]. cbn [ms_map] in *. rewrite C7, (filter_perm _ _ _ P2). cbn [filter]. rewrite Ep. cbn [negb]. apply filter_perm, Permutation_sym, P3.
      * rewrite E2. cbn [bind]. destruct (IH t s n css fl it' rem HR R A' P) as (t2 & E3 & HR3).
        -- intros j x Hj Hp. destruct (HK j x Hj Hp) as [<-|H]; [|exact H]. apply in_live_of in Hj. destruct Hj as (_ & nj & Ej). rewrite Ei in Ej. injection Ej as <- _. congruence.
        -- cbn [length] in HF. lia.
        -- exists t2. auto.
Qed.
Lemma hm_prune_rel p t s n : RelM t s n -> exists t', hm_prune khash keq kdef vdef p t = Ok t' /\ RelM t' (mk_ms (filter (fun b => negb (p (fst b))) (ms_map s)) (ms_virgin s)) n.
Proof.
  intros HR. assert (HR' := HR). destruct HR' as (_ & _ & _ & _ & _ & l & (css & fl & R & ->) & P). unfold hm_prune.
  eapply prune_loop_rel; [exact HR|exact R|apply (ht_begin_at _ t css fl R)|exact P| |].
  - intros i d Hi _. now apply in_live_of in Hi.
  - pose proof (rep_len _ _ _ _ R) as RL. assert (length (filter (fun b => p (fst b)) (ms_map s)) <= length (concat css)).
    { pose proof (Permutation_length P) as PL. pose proof (f_equal (@length nat) (rep_live_fst _ _ _ _ R)) as FL. rewrite map_length in PL, FL. rewrite <- FL, PL. clear. induction (ms_map s) as [|x m IH]; cbn; [lia|]. destruct (p (fst x)); cbn [length]; lia. }
    unfold fuel_of. nia.
Qed.

Lemma hm_step_rel t s n o : RelM t s n -> room n ->
  match mspec keq vdef num den s o with
  | Ok (s', out) => exists t' out', hm_step khash keq kdef vdef t o = Ok (t', out') /\ out_agree out' out
                                    /\ RelM t' s' (S n)
  | Abort => hm_step khash keq kdef vdef t o = Abort
  | _ => False
  end.
Proof.
  intros HR Hroom. assert (HR' := HR). destruct HR' as (A & B & C & Dv & U & l0 & L0 & P0).
  assert (HRS : RelM t s (S n)) by (eapply RelM_le; eauto).
  assert (Hsz : hm_size t = length (ms_map s)).
  { unfold hm_size. destruct (Live_size _ _ _ L0) as (-> & _). rewrite <- (Permutation_length P0), map_length. reflexivity. }
  destruct o as [k|k v|k|k v|k|k|k|k|k must| |m| | | | |k|p|p]; cbn [mspec hm_step].
  - (* index *) unfold hm_index.
    destruct (hm_lookup_rel t s n k HR) as [(i & b & l & E & L & P & Hi & Hk & Hb & F & Rd)|(E & F & Ab)]; rewrite E, F; cbn [bind].
    + exists t; eexists; split; [rewrite Rd; reflexivity|]. split; [reflexivity|exact HRS].
    + destruct (hm_add_rel t s n k vdef HR Hroom Ab) as (t' & i & E' & Rd & R' & _).
      unfold fullval. rewrite E'; cbn [bind]. rewrite Rd; cbn [bind]. exists t'; eexists; split; [reflexivity|]. split; [reflexivity|exact R'].
  - (* assign *) unfold hm_index.
    destruct (hm_lookup_rel t s n k HR) as [(i & b & l & E & L & P & Hi & Hk & Hb & F & Rd)|(E & F & Ab)]; rewrite E, F; cbn [bind].
    + destruct (hm_write_rel t s n l i b v HR L P Hi k Hk) as (t' & Ew & R' & _). rewrite Ew; cbn [bind].
      exists t'; eexists; split; [reflexivity|]. split; [reflexivity|]. eapply RelM_le; eauto.
    + destruct (hm_add_rel t s n k vdef HR Hroom Ab) as (t' & i & E' & Rd & R' & l' & L' & Hi' & P').
      unfold fullval. rewrite E'; cbn [bind].
      destruct (hm_write_rel t' _ _ l' i (k, vdef) v R' L' P' Hi' k (keq_refl k)) as (t'' & Ew & R'' & _). rewrite Ew; cbn [bind].
      exists t''; eexists; split; [reflexivity|]. split; [reflexivity|].
      simpl in R''. rewrite keq_refl in R''.
      assert (Hid : forall ll, (forall x, In x ll -> keq k (fst x) = false) -> mupdate keq k v ll = ll).
      { unfold mupdate. induction ll as [|x ll IH]; simpl; intros H; auto. rewrite H by auto. f_equal; auto. }
      fold (mupdate keq k v (ms_map s)) in R''. rewrite (Hid _ Ab) in R''. exact R''.
  - (* lookup *)
    destruct (hm_lookup_rel t s n k HR) as [(i & b & l & E & L & P & Hi & Hk & Hb & F & Rd)|(E & F & Ab)]; rewrite E, F; cbn [bind].
    + rewrite Rd; cbn [bind]. exists t; eexists; split; [reflexivity|]. split; [reflexivity|exact HRS].
    + exists t; eexists; split; [reflexivity|]. split; [reflexivity|exact HRS].
  - (* lookupset *)
    destruct (hm_lookup_rel t s n k HR) as [(i & b & l & E & L & P & Hi & Hk & Hb & F & Rd)|(E & F & Ab)]; rewrite E, F; cbn [bind].
    + destruct (hm_write_rel t s n l i b v HR L P Hi k Hk) as (t' & Ew & R' & _). rewrite Ew; cbn [bind].
      exists t'; eexists; split; [reflexivity|]. split; [reflexivity|]. eapply RelM_le; eauto.
    + exists t; eexists; split; [reflexivity|]. split; [reflexivity|exact HRS].
  - (* exists *) unfold hm_exists.
    destruct (hm_lookup_rel t s n k HR) as [(i & b & l & E & L & P & Hi & Hk & Hb & F & Rd)|(E & F & Ab)]; rewrite E, F; cbn [bind];
      (exists t; eexists; split; [reflexivity|]; split; [reflexivity|exact HRS]).
  - (* cget *) unfold hm_cGet.
    destruct (hm_lookup_rel t s n k HR) as [(i & b & l & E & L & P & Hi & Hk & Hb & F & Rd)|(E & F & Ab)]; rewrite E, F; cbn [bind]; auto.
    rewrite Rd; cbn [bind]. exists t; eexists; split; [reflexivity|]. split; [reflexivity|exact HRS].
  - (* dget *) unfold hm_dGet.
    destruct (hm_lookup_rel t s n k HR) as [(i & b & l & E & L & P & Hi & Hk & Hb & F & Rd)|(E & F & Ab)]; rewrite E, F; cbn [bind];
    [rewrite Rd; cbn [bind]|]; (exists t; eexists; split; [reflexivity|]; split; [reflexivity|exact HRS]).
  - (* addunless *) unfold hm_addUnlessExist.
    destruct (hm_lookup_rel t s n k HR) as [(i & b & l & E & L & P & Hi & Hk & Hb & F & Rd)|(E & F & Ab)]; rewrite E, F; cbn [bind].
    + exists t; eexists; split; [reflexivity|]. split; [reflexivity|exact HRS].
    + destruct (hm_add_rel t s n k vdef HR Hroom Ab) as (t' & i & E' & Rd & R' & _).
      unfold fullval. rewrite E'; cbn [bind]. exists t'; eexists; split; [reflexivity|]. split; [reflexivity|exact R'].
  - (* remove *)
    destruct (hm_remove_rel t s n k must HR) as [(t' & E & (v & F) & R')|(E & F)]; rewrite E, F; cbn [bind].
    + exists t'; eexists; split; [reflexivity|]. split; [reflexivity|]. eapply RelM_le; eauto.
    + destruct must; cbn [bind]; auto. exists t; eexists; split; [reflexivity|]. split; [reflexivity|exact HRS].
  - (* clear *) exists (hm_clear t); eexists; split; [reflexivity|]. split; [reflexivity|].
    unfold RelM; simpl. repeat split; auto; try lia.
    + intros k; simpl; lia.
    + exists []; split; auto. eapply ht_clear_spec; eauto.
  - (* reserve *) unfold hm_reserve.
    destruct (ht_reserve_spec vhash t l0 m L0) as [(t' & E & Hl & L' & Cn & Cn' & Hn & Hd & Hw)|(E & F)]; rewrite E; cbn [bind].
    + unfold reserve_want in Hw. rewrite A, B in Hw. change max_prime with largest in Hw.
      rewrite (proj2 Dv Cn), (proj2 (N.leb_le _ _) Hw). simpl.
      exists t'; eexists; split; [reflexivity|]. split; [reflexivity|].
      unfold RelM. rewrite Hn, Hd, Cn'. rewrite Cn in Dv. simpl. repeat split; auto; try lia; try apply Dv.
      exists []; split; auto. subst l0. exact P0.
    + destruct F as [F|F].
      * destruct (ms_virgin s) eqn:Ev; simpl; auto. exfalso; apply F, Dv; auto.
      * unfold reserve_want in F. rewrite A, B in F. change max_prime with largest in F.
        rewrite (proj2 (N.leb_gt _ _) F). rewrite andb_false_r. auto.
  - (* size *) exists t; eexists; split; [reflexivity|]. split; [|exact HRS]. simpl. now rewrite Hsz.
  - (* empty *) exists t; eexists; split; [reflexivity|]. split; [|exact HRS]. simpl.
    unfold hm_empty. unfold hm_size in Hsz. now rewrite Hsz.
  - (* keys *) unfold hm_keys, hm_iterate. rewrite (ht_iterate_spec _ _ _ L0); cbn [bind].
    exists t; eexists; split; [reflexivity|]. split; [|exact HRS]. simpl. now apply Permutation_map.
  - (* iterate *) unfold hm_iterate. rewrite (ht_iterate_spec _ _ _ L0); cbn [bind].
    exists t; eexists; split; [reflexivity|]. split; [|exact HRS]. exact P0.
  - (* find/erase *) unfold hm_find, hm_erase.
    destruct (ht_find_erase_spec vhash vequal (kdef, vdef) t l0 (fullval vdef k) EHm L0) as [(it & t' & l' & i & d & E & Ee & Ed & Et & L' & P' & Eq & Kp)|(it & E & Ee & Hn)];
      rewrite E; cbn [bind]; rewrite Ee.
    + rewrite Et; cbn [bind].
      assert (Hd : In d (ms_map s)). { eapply in_snd; eauto. eapply Permutation_in; [apply Permutation_sym; exact P'|simpl; auto]. }
      rewrite (mfind_some _ k d U Hd Eq).
      exists t'; eexists; split; [reflexivity|]. split; [reflexivity|].
      eapply RelM_le; [|apply Nat.le_succ_diag_r]. eapply delete_perm; eauto.
    + rewrite mfind_none.
      * exists t; eexists; split; [reflexivity|]. split; [reflexivity|exact HRS].
      * intros b Hb. apply (absent_perm vequal (fullval vdef k) l0 (ms_map s) P0); auto.
  - (* eraseif *)
    destruct (ht_erase_if_spec vhash (kdef, vdef) (fun b => p (fst b) (snd b)) t l0 L0) as (t' & l' & E & L' & Kp & P').
    rewrite E; cbn [bind]. exists t'; eexists; split; [reflexivity|]. split; [exact P0|].
    destruct Kp as (K1 & K2 & K3 & K4). unfold RelM; simpl.
    split; [congruence|]. split; [congruence|]. split; [lia|]. split.
    { rewrite Dv. split; intros E0; apply length_zero_iff_nil; [rewrite K2, E0|rewrite <- K2, E0]; reflexivity. }
    split; [now apply uniq_filter|]. exists l'. split; auto.
    set (f := fun b : K * V => p (fst b) (snd b)) in *.
    assert (Q : Permutation (filter (fun x => f (snd x)) l0 ++ l')
                            (filter (fun x => f (snd x)) l0 ++ filter (fun x => negb (f (snd x))) l0)).
    { transitivity l0; [symmetry; exact P'|]. apply filter_split_perm. }
    apply Permutation_app_inv_l in Q. rewrite Q.
    rewrite (map_snd_filter (fun d => negb (f d))). now apply filter_perm.
  - (* prune *) destruct (hm_prune_rel p t s n HR) as (t' & E & R'). rewrite E. cbn [bind]. exists t'; eexists; split; [reflexivity|]. split; [reflexivity|]. eapply RelM_le; eauto.
Qed.

Lemma hm_run_rel ops : forall t s n, RelM t s n -> room (n + length ops) ->
  Forall2 res_agree (hm_run khash keq kdef vdef t ops) (mspec_run keq vdef num den s ops).
Proof.
  induction ops as [|o ops IH]; intros t s n HR Hroom; cbn [hm_run mspec_run]; [constructor|].
  assert (X := hm_step_rel t s n o HR). simpl in Hroom.
  specialize (X ltac:(eapply room_mono; [|exact Hroom]; lia)).
  destruct (mspec keq vdef num den s o) as [[s' out]| | |]; try tauto.
  - destruct X as (t' & out' & E & Ag & R'). rewrite E. constructor; [exact Ag|].
    apply (IH t' s' (S n)); auto. now replace (S n + length ops) with (n + S (length ops)) by lia.
  - rewrite X. constructor; [exact I|constructor].
Qed.

Lemma hm_new_rel t : hm_new num den = Ok t -> RelM t (mk_ms [] true) 0.
Proof. unfold hm_new, ht_new. destruct (Nat.ltb_spec 0 num), (Nat.ltb_spec 0 den); simpl; try discriminate.
  inversion 1; subst; clear H1. unfold RelM; simpl. repeat split; auto.
  - intros k; simpl; lia.
  - exists []; split; auto. apply ht_new_spec; auto. Qed.

Lemma hm_refines t ops : hm_new num den = Ok t -> room (length ops) ->
  Forall2 res_agree (hm_run khash keq kdef vdef t ops) (mspec_run keq vdef num den (mk_ms [] true) ops).
Proof. intros E H. eapply hm_run_rel; [eapply hm_new_rel; eauto|exact H]. Qed.

End HMP.
