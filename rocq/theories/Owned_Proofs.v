(** Owned_Model conforms to Owned_Spec. *)
From Coq Require Import List Arith NArith Lia Bool Permutation Sorting.Sorted.
From Verif Require Import Common CommonFacts HashTable_Model HashTable_Spec HashTable_Proofs HashTable_Refine HashMap_Spec HashMap_Model HashMap_Proofs Owned_Spec Owned_Model.
Import ListNotations.

(** The heap *)
Section heap.
Context {S : Type}.
Definition HeapOK (h : heap S) (O : list (nat * S)) : Prop :=
  NoDup (map fst O) /\ forall a s, nth_error h a = Some (Some s) <-> In (a, s) O.

Lemma heap_perm h O O' : Permutation O O' -> HeapOK h O -> HeapOK h O'.
Proof.
  intros P (ND & H). split; [eapply Permutation_NoDup; [apply Permutation_map; exact P|exact ND]|].
  intros a s. rewrite H. split; apply Permutation_in; [exact P|now apply Permutation_sym].
Qed.
Lemma heap_get h O a s : HeapOK h O -> In (a, s) O -> hget h a = Ok s.
Proof. intros (_ & H) I. apply H in I. unfold hget. now rewrite I. Qed.
Lemma heap_get_none h O a : HeapOK h O -> ~ In a (map fst O) -> hget h a = UB.
Proof.
  intros (_ & H) I. unfold hget. destruct (nth_error h a) as [[s|]|] eqn:E; auto.
  exfalso. apply I. apply H in E. apply in_map_iff. exists (a, s). auto.
Qed.
Lemma nth_upd_eq {A} (l : list A) : forall i x, i < length l -> nth_error (upd l i x) i = Some x.
Proof. induction l as [|y l IH]; intros [|i] x H; cbn in *; try lia; auto. apply IH. lia. Qed.
Lemma nth_upd_ne {A} (l : list A) : forall i j x, i <> j -> nth_error (upd l i x) j = nth_error l j.
Proof. induction l as [|y l IH]; intros [|i] [|j] x H; cbn in *; try lia; auto. Qed.
Lemma upd_len {A} (l : list A) : forall i x, length (upd l i x) = length l.
Proof. induction l as [|y l IH]; intros [|i] x; cbn; auto. Qed.
Lemma nth_lt {A} (l : list A) i x : nth_error l i = Some x -> i < length l.
Proof. intros H. apply nth_error_Some. congruence. Qed.

Lemma heap_set h a s s' O : HeapOK h ((a, s) :: O) -> exists h', hset h a s' = Ok h' /\ HeapOK h' ((a, s') :: O) /\ length h' = length h.
Proof.
  intros (ND & H). assert (E : nth_error h a = Some (Some s)) by (apply H; now left).
  unfold hset. rewrite E. eexists. split; [reflexivity|]. split; [|apply upd_len]. split; [exact ND|].
  intros b x. cbn [map fst] in ND. inversion ND as [|? ? N1 N2]; subst. destruct (Nat.eq_dec a b) as [<-|Hab].
  - rewrite nth_upd_eq by (eapply nth_lt; exact E). split.
    + intros X. left. congruence.
    + intros [X|X]; [congruence|]. exfalso. apply N1. apply in_map_iff. exists (a, x). auto.
  - rewrite nth_upd_ne by exact Hab. rewrite H. cbn [In]. split; (intros [X|X]; [congruence|now right]).
Qed.
Lemma heap_delete h a s O : HeapOK h ((a, s) :: O) -> exists h', hdelete h (Some a) = Ok h' /\ HeapOK h' O /\ length h' = length h.
Proof.
  intros (ND & H). assert (E : nth_error h a = Some (Some s)) by (apply H; now left).
  unfold hdelete. rewrite E. eexists. split; [reflexivity|]. split; [|apply upd_len].
  cbn [map fst] in ND. inversion ND as [|? ? N1 N2]; subst. split; [exact N2|].
  intros b x. destruct (Nat.eq_dec a b) as [<-|Hab].
  - rewrite nth_upd_eq by (eapply nth_lt; exact E). split; [discriminate|]. intros X. exfalso. apply N1. apply in_map_iff. exists (a, x). auto.
  - rewrite nth_upd_ne by exact Hab. rewrite H. cbn [In]. split; [intros [X|X]; [congruence|exact X]|now right].
Qed.
Lemma heap_alloc h s O : HeapOK h O -> HeapOK (fst (halloc h s)) ((length h, s) :: O).
Proof.
  intros (ND & H). cbn [halloc fst]. split.
  - cbn [map fst]. constructor; [|exact ND]. intros X. apply in_map_iff in X. destruct X as ((a & x) & E & I). cbn in E. subst a. apply H in I. apply nth_lt in I. lia.
  - intros a x. destruct (Nat.lt_trichotomy a (length h)) as [L|[->|L]].
    + rewrite nth_error_app1 by exact L. rewrite H. cbn [In]. split; [now right|]. intros [X|X]; [|exact X]. injection X as <- _. lia.
    + rewrite nth_error_app2, Nat.sub_diag by lia. cbn [nth_error In]. split.
      * intros X. left. congruence.
      * intros [X|X]; [congruence|]. apply H in X. apply nth_lt in X. lia.
    + split.
      * intros X. apply nth_lt in X. rewrite app_length in X. cbn in X. lia.
      * intros [X|X]; [injection X as <- _; lia|]. apply H in X. apply nth_lt in X. lia.
Qed.
Lemma heap_nil : HeapOK [] [].
Proof. split; [constructor|]. intros [|a] s; cbn; split; intros H; try discriminate; destruct H. Qed.

(** The live objects, in order of address *)
Fixpoint lives (i : nat) (h : heap S) : list (nat * S) :=
  match h with
  | [] => []
  | Some s :: r => (i, s) :: lives (i + 1) r
  | None :: r => lives (i + 1) r
  end.
Lemma lives_in h : forall i a s, In (a, s) (lives i h) <-> i <= a /\ nth_error h (a - i) = Some (Some s).
Proof.
  induction h as [|[c|] h IH]; intros i a s; cbn [lives In].
  - split; [tauto|]. intros (_ & H). now destruct (a - i).
  - rewrite IH. split.
    + intros [X|(L & E)]; [injection X as <- <-; rewrite Nat.sub_diag; auto|]. split; [lia|]. replace (a - i) with (Datatypes.S (a - (i + 1))) by lia. exact E.
    + intros (L & E). destruct (Nat.eq_dec a i) as [->|N]; [rewrite Nat.sub_diag in E; cbn in E; left; congruence|]. right. split; [lia|]. now replace (a - i) with (Datatypes.S (a - (i + 1))) in E by lia.
  - rewrite IH. split; intros (L & E).
    + split; [lia|]. replace (a - i) with (Datatypes.S (a - (i + 1))) by lia. exact E.
    + destruct (Nat.eq_dec a i) as [->|N]; [rewrite Nat.sub_diag in E; discriminate|]. split; [lia|]. now replace (a - i) with (Datatypes.S (a - (i + 1))) in E by lia.
Qed.
Lemma lives_nodup h : forall i, NoDup (lives i h).
Proof.
  induction h as [|[c|] h IH]; intros i; cbn [lives]; [constructor| |apply IH].
  constructor; [|apply IH]. rewrite lives_in. lia.
Qed.
Lemma lives_len h : forall i, length (lives i h) = hlive h.
Proof. unfold hlive. induction h as [|[c|] h IH]; intros i; cbn [lives filter length]; auto. Qed.
Lemma nodup_fst (O : list (nat * S)) : NoDup (map fst O) -> NoDup O.
Proof. apply NoDup_map_inv. Qed.
Lemma heap_lives h O : HeapOK h O -> Permutation (lives 0 h) O.
Proof.
  intros (ND & H). apply NoDup_Permutation; [apply lives_nodup|now apply nodup_fst|].
  intros (a & s). rewrite lives_in, Nat.sub_0_r, <- H. split; [now intros (_ & X)|intros X; split; [lia|exact X]].
Qed.
Lemma heap_live h O : HeapOK h O -> hlive h = length O.
Proof. intros H. rewrite <- (lives_len h 0). apply Permutation_length, heap_lives, H. Qed.
End heap.

Section P.
Context {K S : Type}.
Variable khash : K -> N.
Variable keq : K -> K -> bool.
Variable kdef : K.
Variable klt : K -> K -> bool.
Variable fresh : S.
Variable checked : bool.
Hypothesis keq_refl : forall a, keq a a = true.
Hypothesis keq_sym : forall a b, keq a b = true -> keq b a = true.
Hypothesis keq_trans : forall a b c, keq a b = true -> keq b c = true -> keq a c = true.
Hypothesis khash_eq : forall a b, keq a b = true -> khash a = khash b.
Hypothesis klt_trans : forall a b c, klt a b = true -> klt b c = true -> klt a c = true.
Hypothesis klt_total : forall a b, keq a b = false -> klt a b = true \/ klt b a = true.

Notation V := (option nat).
Notation RelM := (@RelM K V khash keq 2 1).
Notation entry := (K * option (nat * S))%type.
Notation room := (HashMap_Proofs.room 2 1).

Definition strip1 (e : entry) : K * V := (fst e, option_map fst (snd e)).
Definition strip (m : list entry) : list (K * V) := map strip1 m.

Definition R (st : ostate K S) (s : tstate K S) (n : nat) : Prop :=
  (exists v, RelM (data st) (mk_ms (strip (entries s)) v) n)
  /\ length (mem st) = next s /\ HeapOK (mem st) (existing s).

Lemma RelM_perm t m m' v n : Permutation m m' -> RelM t (mk_ms m v) n -> RelM t (mk_ms m' v) n.
Proof.
  intros P (A & B & C & D & U & l & L & Q). split; [exact A|]. split; [exact B|]. split; [exact C|]. split; [exact D|]. split; [eapply uniq_perm; eauto|].
  exists l. split; [exact L|]. cbn [ms_map] in *. now rewrite Q.
Qed.
Lemma strip_perm m m' : Permutation m m' -> Permutation (strip m) (strip m').
Proof. apply Permutation_map. Qed.
Lemma objs_app (m m' : list entry) : objs (m ++ m') = objs m ++ objs m'.
Proof. apply flat_map_app. Qed.
Lemma objs_perm (m m' : list entry) : Permutation m m' -> Permutation (objs m) (objs m').
Proof. apply Permutation_flat_map. Qed.

Lemma uniq_strip m : uniq keq (strip m) <-> uniq keq m.
Proof.
  unfold uniq. assert (X : forall k, length (filter (fun b : K * V => keq k (fst b)) (strip m)) = length (filter (fun b : entry => keq k (fst b)) m)).
  { intros k. induction m as [|e m IH]; [reflexivity|]. cbn [strip map filter strip1 fst]. destruct (keq k (fst e)); cbn [length]; [f_equal|]; exact IH. }
  split; intros H k; [rewrite <- X|rewrite X]; apply H.
Qed.
Lemma mfind_strip k m : mfind keq k (strip m) = option_map (option_map fst) (mfind keq k m).
Proof.
  unfold mfind. induction m as [|e m IH]; [reflexivity|]. cbn [strip map find strip1 fst]. destruct (keq k (fst e)); [reflexivity|]. exact IH.
Qed.
Lemma mupdate_strip k o m : strip (mupdate keq k o m) = mupdate keq k (option_map fst o) (strip m).
Proof.
  unfold mupdate, strip. rewrite !map_map. apply map_ext. intros e. cbn [strip1 fst]. destruct (keq k (fst e)); reflexivity.
Qed.
Lemma mdelete_strip k m : strip (mdelete keq k m) = mdelete keq k (strip m).
Proof.
  unfold mdelete. induction m as [|e m IH]; [reflexivity|]. cbn [strip map filter strip1 fst]. destruct (keq k (fst e)); cbn [negb]; [exact IH|]. cbn [strip map]. f_equal. exact IH.
Qed.

(** The entry of a key *)
Lemma mfind_split (m : list entry) k o : uniq keq m -> mfind keq k m = Some o ->
  exists k0, keq k k0 = true /\ In (k0, o) m /\ Permutation m ((k0, o) :: mdelete keq k m)
    /\ forall v, Permutation (mupdate keq k v m) ((k0, v) :: mdelete keq k m).
Proof.
  intros U. unfold mfind. destruct (find (fun b : entry => keq k (fst b)) m) as [(k0 & o')|] eqn:F; cbn [option_map snd]; intros X; [|discriminate X]. injection X as ->.
  apply find_some in F. destruct F as (I & E). cbn [fst] in E. exists k0. split; [exact E|]. split; [exact I|].
  destruct (in_split _ _ I) as (l1 & l2 & ->).
  assert (Q : uniq keq ((k0, o) :: l1 ++ l2)) by (eapply uniq_perm; [apply Permutation_sym, Permutation_middle|exact U]).
  apply (uniq_tail keq keq_refl) in Q. destruct Q as (_ & Q). cbn [fst] in Q.
  assert (O : forall x, In x (l1 ++ l2) -> keq k (fst x) = false).
  { intros x Hx. destruct (keq k (fst x)) eqn:Ex; [|reflexivity]. rewrite <- (Q x Hx). symmetry. eapply keq_trans; [apply keq_sym; exact E|exact Ex]. }
  assert (D : mdelete keq k (l1 ++ (k0, o) :: l2) = l1 ++ l2).
  { unfold mdelete. rewrite filter_app. cbn [filter fst]. rewrite E. cbn [negb]. rewrite <- filter_app. apply filter_id. intros x Hx. now rewrite O. }
  rewrite D. split; [apply Permutation_sym, Permutation_middle|]. intros v.
  assert (M : forall ll, (forall x, In x ll -> keq k (fst x) = false) -> map (fun b : entry => if keq k (fst b) then (fst b, v) else b) ll = ll).
  { induction ll as [|x ll IH]; intros H; [reflexivity|]. cbn [map]. rewrite H by (now left). f_equal. apply IH. intros y Hy. apply H. now right. }
  unfold mupdate. rewrite map_app. cbn [map fst]. rewrite E. rewrite !M.
  - apply Permutation_sym, Permutation_middle.
  - intros x Hx. apply O. apply in_or_app. now right.
  - intros x Hx. apply O. apply in_or_app. now left.
Qed.

(** Walks *)
Lemma visit_rel f : forall l h rest, HeapOK h (objs l ++ rest) ->
  match visit f l with
  | None => walkRows f h (strip l) = UB
  | Some (l', rows, th) => exists h', walkRows f h (strip l) = Ok (h', rows, th) /\ HeapOK h' (objs l' ++ rest) /\ length h' = length h /\ strip l' = strip l
  end.
Proof.
  induction l as [|(k & [(a & s)|]) l IH]; intros h rest H; cbn [visit strip map strip1 fst snd option_map walkRows].
  - exists h. auto.
  - cbn [objs flat_map snd app] in H. rewrite (heap_get h _ a s H) by (now left). cbn [bind]. destruct (f k s) as (s' & thrown).
    destruct (heap_set h a s s' _ H) as (h1 & E1 & H1 & L1). rewrite E1. cbn [bind]. destruct thrown.
    + exists h1. auto.
    + specialize (IH h1 ((a, s') :: rest)). assert (H2 : HeapOK h1 (objs l ++ (a, s') :: rest)) by (eapply heap_perm; [apply Permutation_middle|exact H1]). specialize (IH H2).
      destruct (visit f l) as [((l' & rows) & th)|].
      * destruct IH as (h' & E & H3 & L3 & Sl). fold (strip l). rewrite E. cbn [bind]. exists h'. split; [reflexivity|]. split.
        -- cbn [objs flat_map snd app]. eapply heap_perm; [|exact H3]. apply Permutation_sym, Permutation_middle.
        -- split; [lia|]. cbn [strip map strip1 fst snd option_map]. f_equal. exact Sl.
      * fold (strip l). rewrite IH. reflexivity.
  - reflexivity.
Qed.

Lemma iterate_rel st s n : R st s n -> exists o, hm_iterate (data st) = Ok (strip o) /\ Permutation (entries s) o.
Proof.
  intros ((v & A & B & C & D & U & l & L & P) & _). unfold hm_iterate. rewrite (ht_iterate_spec _ _ _ L). cbn [ms_map] in P.
  destruct (Permutation_map_inv _ _ P) as (o & E & Q). exists o. split; [now rewrite E|exact Q].
Qed.

(** Sorting *)
Notation le2 := (fun a b : K * V => klt (fst a) (fst b) = true).
Lemma insert_perm x l : Permutation (insert klt x l) (x :: l).
Proof. induction l as [|y l IH]; cbn [insert]; [reflexivity|]. destruct (pairlt klt y x); [|reflexivity]. rewrite IH. apply perm_swap. Qed.
Lemma sort_perm l : Permutation (sort klt l) l.
Proof. induction l as [|x l IH]; cbn [sort]; [reflexivity|]. now rewrite insert_perm, IH. Qed.
Lemma insert_sorted x l : (forall y, In y l -> keq (fst x) (fst y) = false) -> StronglySorted le2 l -> StronglySorted le2 (insert klt x l).
Proof.
  intros D H. induction l as [|y l IH]; cbn [insert]; [constructor; [constructor|constructor]|].
  inversion H as [|? ? H1 H2]; subst.
  assert (Dy : keq (fst x) (fst y) = false) by (apply D; now left).
  destruct (pairlt klt y x) eqn:E.
  - assert (Hy : klt (fst y) (fst x) = true).
    { destruct (klt_total _ _ Dy) as [X|X]; [|exact X]. unfold pairlt in E. rewrite X in E. cbn [negb andb] in E. now rewrite orb_false_r in E. }
    constructor; [apply IH; [intros z Hz; apply D; now right|exact H1]|].
    eapply Permutation_Forall; [apply Permutation_sym, insert_perm|]. constructor; [exact Hy|exact H2].
  - assert (Hx : klt (fst x) (fst y) = true).
    { destruct (klt_total _ _ Dy) as [X|X]; [exact X|]. unfold pairlt in E. rewrite X in E. discriminate. }
    constructor; [exact H|]. constructor; [exact Hx|]. eapply Forall_impl; [|exact H2]. intros z Hz. cbv beta in *. eapply klt_trans; eauto.
Qed.
Lemma sort_sorted l : uniq keq l -> StronglySorted le2 (sort klt l).
Proof.
  induction l as [|x l IH]; intros U; cbn [sort]; [constructor|]. apply (uniq_tail keq keq_refl) in U. destruct U as (U & D).
  apply insert_sorted; [|now apply IH]. intros y Hy. apply D. eapply Permutation_in; [apply sort_perm|exact Hy].
Qed.
Lemma sorted_keys (l : list (K * V)) : StronglySorted le2 l -> StronglySorted (fun a b => klt a b = true) (map fst l).
Proof. induction 1 as [|x l H IH F]; cbn [map]; constructor; auto. apply Forall_forall. intros k Hk. apply in_map_iff in Hk. destruct Hk as (y & <- & Hy). rewrite Forall_forall in F. now apply F. Qed.

(** Finding an entry *)
Lemma find_rel st s n k : R st s n -> exists i, hm_find khash keq None (data st) k = Ok i /\
  match mfind keq k (entries s) with
  | None => it_eqb i (ht_end (data st)) = true
  | Some o => it_eqb i (ht_end (data st)) = false /\ exists b, it_deref (data st) i = Ok b /\ snd b = option_map fst o
  end.
Proof.
  intros ((v & A & B & C & Dv & U & l & L & Pm) & _). cbn [ms_map] in *. unfold hm_find.
  destruct (ht_find_erase_spec (@vhash K V khash) (@vequal K V keq) (kdef, None) (data st) l (fullval None k) (EHm khash keq khash_eq) L) as [(it & t' & l' & i & d & E & Ee & Ed & Et & L' & P' & Eq & Kp)|(it & E & Ee & Hn)]; exists it; (split; [exact E|]).
  - assert (Hd : In d (strip (entries s))). { eapply in_snd; eauto. eapply Permutation_in; [apply Permutation_sym; exact P'|now left]. }
    pose proof (mfind_some keq (strip (entries s)) k d U Hd Eq) as F. rewrite mfind_strip in F. destruct (mfind keq k (entries s)) as [o|]; [|discriminate]. cbn in F. injection F as F. split; [exact Ee|]. exists d. auto.
  - assert (F : mfind keq k (strip (entries s)) = None). { apply mfind_none. intros b Hb. apply (absent_perm (@vequal K V keq) (fullval None k) l _ Pm); auto. }
    rewrite mfind_strip in F. destruct (mfind keq k (entries s)); [discriminate|exact Ee].
Qed.

Lemma R_uniq st s n : R st s n -> uniq keq (entries s).
Proof. intros ((v & _ & _ & _ & _ & U & _) & _). now apply uniq_strip in U. Qed.
Lemma RelM_strip t m m' v n : strip m' = strip m -> RelM t (mk_ms (strip m) v) n -> RelM t (mk_ms (strip m') v) n.
Proof. intros ->. auto. Qed.
Lemma objs_cons k a s (m : list entry) : objs ((k, Some (a, s)) :: m) = (a, s) :: objs m.
Proof. reflexivity. Qed.

(** A change of the statistic of a key *)
Lemma change m k a s s' h rest : uniq keq m -> mfind keq k m = Some (Some (a, s)) -> HeapOK h (objs m ++ rest) ->
  hget h a = Ok s /\ exists h', hset h a s' = Ok h' /\ HeapOK h' (objs (mupdate keq k (Some (a, s')) m) ++ rest) /\ length h' = length h
    /\ Permutation (strip (mupdate keq k (Some (a, s')) m)) (strip m).
Proof.
  intros U F H. destruct (mfind_split m k _ U F) as (k0 & Ek & I & P & Q).
  assert (H1 : HeapOK h ((a, s) :: objs (mdelete keq k m) ++ rest)).
  { eapply heap_perm; [|exact H]. rewrite (objs_perm _ _ P). reflexivity. }
  split; [eapply heap_get; [exact H1|now left]|].
  destruct (heap_set h a s s' _ H1) as (h' & E & H2 & L). exists h'. split; [exact E|]. split; [|split; [exact L|]].
  - eapply heap_perm; [|exact H2]. rewrite (objs_perm _ _ (Q (Some (a, s')))). reflexivity.
  - rewrite (strip_perm _ _ (Q (Some (a, s')))), (strip_perm _ _ P). reflexivity.
Qed.

Lemma zvisit_rel f t n0 v a : forall ks m h z rest, RelM t (mk_ms (strip m) v) n0 -> HeapOK h (objs m ++ (a, z) :: rest) ->
  match zvisit keq f ks m a z with
  | None => zeroRows khash keq f t h ks a = UB
  | Some (m', z', rows, th) => exists h', zeroRows khash keq f t h ks a = Ok (h', rows, th) /\ HeapOK h' (objs m' ++ (a, z') :: rest) /\ length h' = length h
      /\ RelM t (mk_ms (strip m') v) n0
  end.
Proof.
  induction ks as [|k ks IH]; intros m h z rest HR H; cbn [zvisit zeroRows].
  - exists h. auto.
  - assert (HR0 : exists st, data st = t /\ R st (mk_ts m (length h) ((a, z) :: rest)) n0).
    { exists (mk_os t h). split; [reflexivity|]. split; [exists v; exact HR|]. split; [reflexivity|exact H]. }
    destruct HR0 as (st & Est & HR0). destruct (find_rel st _ n0 k HR0) as (i & Ei & Fi). rewrite Est in Ei, Fi. cbn [entries] in Fi. rewrite Ei. cbn [bind].
    assert (U : uniq keq m) by (exact (R_uniq _ _ _ HR0)).
    destruct (mfind keq k m) as [[(b & s)|]|] eqn:F.
    + destruct Fi as (-> & d & -> & Ed). cbn [bind]. rewrite Ed. cbn [option_map fst bind].
      destruct (f k s) as (s' & thrown) eqn:Ef. destruct (change m k b s s' h ((a, z) :: rest) U F H) as (-> & h1 & E1 & H1 & L1 & P1). cbn [bind]. rewrite Ef, E1. cbn [bind].
      assert (HR1 : RelM t (mk_ms (strip (mupdate keq k (Some (b, s')) m)) v) n0) by (eapply RelM_perm; [apply Permutation_sym; exact P1|exact HR]).
      destruct thrown; [exists h1; auto|]. specialize (IH (mupdate keq k (Some (b, s')) m) h1 z rest HR1 H1).
      destruct (zvisit keq f ks _ a z) as [(((m' & z') & rows) & th)|].
      * destruct IH as (h' & E & H2 & L2 & HR2). rewrite E. cbn [bind]. exists h'. split; [reflexivity|]. split; [exact H2|]. split; [lia|exact HR2].
      * rewrite IH. reflexivity.
    + destruct Fi as (-> & d & -> & Ed). cbn [bind]. rewrite Ed. reflexivity.
    + rewrite Fi. cbn [bind]. assert (Hz : HeapOK h ((a, z) :: objs m ++ rest)) by (eapply heap_perm; [apply Permutation_sym, Permutation_middle|exact H]).
      rewrite (heap_get h _ a z Hz) by (now left). cbn [bind]. destruct (f k z) as (z1 & thrown). destruct (heap_set h a z z1 _ Hz) as (h1 & E1 & H1 & L1). rewrite E1. cbn [bind].
      assert (H1' : HeapOK h1 (objs m ++ (a, z1) :: rest)) by (eapply heap_perm; [apply Permutation_middle|exact H1]).
      destruct thrown; [exists h1; auto|]. specialize (IH m h1 z1 rest HR H1').
      destruct (zvisit keq f ks m a z1) as [(((m' & z') & rows) & th)|].
      * destruct IH as (h' & E & H2 & L2 & HR2). rewrite E. cbn [bind]. exists h'. split; [reflexivity|]. split; [exact H2|]. split; [lia|exact HR2].
      * rewrite IH. reflexivity.
Qed.

(** getEntry *)
Lemma index_rel t m v n k : RelM t (mk_ms (strip m) v) n -> room n ->
  exists t' i l, hm_index khash keq None t k = Ok (t', i) /\ Live (@vhash K V khash) t' l /\
  match mfind keq k m with
  | Some o => t' = t /\ hm_read t' i = Ok (option_map fst o) /\ (exists b, In (i, b) l /\ keq k (fst b) = true) /\ Permutation (map snd l) (strip m)
  | None => hm_read t' i = Ok None /\ RelM t' (mk_ms (strip (minsert k None m)) false) (Datatypes.S n) /\ (exists b, In (i, b) l /\ keq k (fst b) = true) /\ Permutation (map snd l) (strip (minsert k None m))
  end.
Proof.
  intros HR Hn. unfold hm_index.
  destruct (hm_lookup_rel khash keq None 2 1 khash_eq t _ n k HR) as [(i & b & l & E & L & P & Hi & Hk & Hb & F & Rd)|(E & F & Ab)]; rewrite E; cbn [bind]; cbn [ms_map] in *.
  - exists t, i, l. split; [reflexivity|]. split; [exact L|]. rewrite mfind_strip in F. destruct (mfind keq k m) as [o|]; [|discriminate]. cbn in F. injection F as F. split; [reflexivity|]. split; [now rewrite Rd, F|]. split; [exists b; auto|exact P].
  - destruct (hm_add_rel khash keq 2 1 keq_sym keq_trans t _ n k None HR Hn Ab) as (t' & i & E' & Rd & R' & l' & L' & Hi' & P').
    unfold fullval. rewrite E'. exists t', i, l'. split; [reflexivity|]. split; [exact L'|]. rewrite mfind_strip in F. destruct (mfind keq k m) as [o|]; [discriminate|]. split; [exact Rd|]. split; [exact R'|]. split; [exists (k, None); split; [exact Hi'|apply keq_refl]|exact P'].
Qed.

Lemma touch_rel st s n k g md : R st s n -> room n ->
  match ostep khash keq kdef klt fresh checked st (TTouch k g md) with
  | Ok (st', out) => exists s', tstep keq klt fresh checked s (TTouch k g md) (Ok (out, s')) /\ R st' s' (Datatypes.S n)
  | Abort => tstep keq klt fresh checked s (TTouch k g md) Abort
  | UB => tstep keq klt fresh checked s (TTouch k g md) UB
  | Fuel => False
  end.
Proof.
  intros HR Hn. assert (U := R_uniq _ _ _ HR). destruct s as [m nx lk]. destruct HR as ((v & HM) & HL & HH). cbn [entries next leaked existing] in *. unfold existing in HH. cbn [entries leaked] in HH.
  cbn [ostep]. unfold getEntry. destruct (index_rel (data st) m v n k HM Hn) as (t' & i & l & E & L & X). rewrite E. cbn [bind].
  destruct (mfind keq k m) as [[(a & x)|]|] eqn:F.
  - destruct X as (-> & -> & _ & _). cbn [bind option_map fst data mem]. destruct (change m k a x (g x) (mem st) lk U F HH) as (-> & h1 & E1 & H1 & L1 & P1). cbn [bind]. rewrite E1. cbn [bind].
    eexists. split; [apply s_touch_old; exact F|]. split; [exists v; eapply RelM_le; [eapply RelM_perm; [apply Permutation_sym; exact P1|exact HM]|lia]|]. split; [cbn; lia|exact H1].
  - destruct X as (-> & -> & (b & Hb & Ek) & P). cbn [bind option_map]. destruct md.
    + cbn [halloc]. destruct (hm_write_rel khash keq 2 1 keq_refl keq_sym keq_trans (data st) _ n l i b (Some (length (mem st))) HM L P Hb k Ek) as (t2 & E2 & R2 & _). rewrite E2. cbn [bind data mem].
      pose proof (heap_alloc (mem st) fresh _ HH) as HA. cbn [halloc fst] in HA. rewrite (heap_get _ _ _ _ HA) by (now left). cbn [bind].
      destruct (heap_set _ _ _ (g fresh) _ HA) as (h1 & E1 & H1 & L1). rewrite E1. cbn [bind]. rewrite HL in *.
      eexists. split; [apply s_touch_again; exact F|]. split; [exists v; cbn [entries data]; rewrite mupdate_strip; cbn [option_map fst]; eapply RelM_le; [exact R2|lia]|].
      split; [cbn [mem next]; rewrite L1, app_length; cbn [length]; lia|]. unfold existing. cbn [entries leaked mem]. eapply heap_perm; [|exact H1].
      destruct (mfind_split m k _ U F) as (k0 & Ek0 & I & P0 & Q). rewrite (objs_perm _ _ (Q (Some (nx, g fresh)))), (objs_perm _ _ P0). reflexivity.
    + eexists. split; [apply s_touch_threw_again; exact F|]. split; [exists v; eapply RelM_le; [exact HM|lia]|]. split; [exact HL|exact HH].
    + pose proof (s_touch_null keq klt fresh checked m nx lk k g (or_intror F)) as SN. destruct checked; exact SN.
  - destruct X as (-> & HM' & (b & Hb & Ek) & P). cbn [bind option_map]. destruct md.
    + cbn [halloc]. destruct (hm_write_rel khash keq 2 1 keq_refl keq_sym keq_trans t' _ _ l i b (Some (length (mem st))) HM' L P Hb k Ek) as (t2 & E2 & R2 & _). rewrite E2. cbn [bind data mem].
      pose proof (heap_alloc (mem st) fresh _ HH) as HA. cbn [halloc fst] in HA. rewrite (heap_get _ _ _ _ HA) by (now left). cbn [bind].
      destruct (heap_set _ _ _ (g fresh) _ HA) as (h1 & E1 & H1 & L1). rewrite E1. cbn [bind]. rewrite HL in *.
      eexists. split; [apply s_touch_new; exact F|]. split.
      * eexists. cbn [entries data ms_map ms_virgin] in *. eapply RelM_perm; [|exact R2].
        cbn [minsert strip map strip1 fst snd option_map]. unfold mupdate. cbn [map fst]. rewrite keq_refl. apply perm_skip. clear - F. 
        assert (Ab : forall b : entry, In b m -> keq k (fst b) = false). { unfold mfind in F. intros b Hb. destruct (find (fun b0 : entry => keq k (fst b0)) m) as [p|] eqn:E; [discriminate|]. apply (find_none _ _ E b Hb). }
        clear F. induction m as [|e m IH]; [reflexivity|]. cbn [strip map strip1 fst]. rewrite (Ab e) by (now left). apply perm_skip. apply IH. intros b Hb. apply Ab. now right.
      * split; [cbn [mem next]; rewrite L1, app_length; cbn [length]; lia|]. exact H1.
    + eexists. split; [apply s_touch_threw; exact F|]. split; [eexists; exact HM'|]. split; [exact HL|exact HH].
    + pose proof (s_touch_null keq klt fresh checked m nx lk k g (or_introl F)) as SN. destruct checked; exact SN.
Qed.

(** Deleting *)
Lemma deleteAll_rel : forall (l : list entry) h rest, HeapOK h (objs l ++ rest) -> exists h', deleteAll h (strip l) = Ok h' /\ HeapOK h' rest /\ length h' = length h.
Proof.
  induction l as [|(k & [(a & s)|]) l IH]; intros h rest H; cbn [strip map strip1 fst snd option_map deleteAll].
  - exists h. auto.
  - cbn [objs flat_map snd app] in H. destruct (heap_delete h a s _ H) as (h1 & -> & H1 & L1). cbn [bind]. destruct (IH h1 rest H1) as (h' & E & H2 & L2). exists h'. split; [exact E|]. split; [exact H2|lia].
  - cbn [hdelete bind]. apply IH. exact H.
Qed.
Lemma clear_rel st s n : R st s n -> exists st', oclear st = Ok st' /\ R st' (mk_ts [] (next s) (leaked s)) n.
Proof.
  intros HR. destruct (iterate_rel st s n HR) as (o & E & P). unfold oclear. rewrite E. cbn [bind]. destruct HR as ((v & HM) & HL & HH).
  destruct (deleteAll_rel o (mem st) (leaked s)) as (h' & -> & H' & L'). { eapply heap_perm; [|exact HH]. unfold existing. now rewrite (objs_perm _ _ P). }
  cbn [bind]. eexists. split; [reflexivity|]. split; [|split; [cbn; lia|exact H']].
  exists true. destruct HM as (A & B & C & D & U & l & L & Q). unfold HashMap_Proofs.RelM. cbn [data entries strip map ms_map ms_virgin]. unfold hm_clear.
  split; [exact A|]. split; [exact B|]. split; [cbn; lia|]. split; [split; reflexivity|]. split; [intros k; cbn; lia|]. exists []. split; [eapply ht_clear_spec; eauto|reflexivity].
Qed.

(** prune *)
Lemma snoc_split {A} (log : list A) x l1 y l2 : log ++ [x] = l1 ++ y :: l2 -> (l2 = [] /\ log = l1 /\ y = x) \/ exists l2', l2 = l2' ++ [x] /\ log = l1 ++ y :: l2'.
Proof.
  intros E. destruct l2 as [|z l2] using rev_ind.
  - left. apply app_inj_tail in E. destruct E as (-> & ->). auto.
  - right. clear IHl2. exists l2. rewrite app_comm_cons, app_assoc in E. apply app_inj_tail in E. destruct E as (-> & ->). auto.
Qed.
Lemma chosen_snoc log k b x : chosen keq (log ++ [(k, b)]) x = chosen keq log x || (keq k x && b).
Proof. unfold chosen. rewrite existsb_app. cbn [existsb fst snd]. now rewrite orb_false_r. Qed.
Lemma filter_filter {A} (f g : A -> bool) l : filter f (filter g l) = filter (fun x => g x && f x) l.
Proof. induction l as [|x l IH]; [reflexivity|]. cbn [filter]. destruct (g x); cbn [filter andb]; [destruct (f x)|]; rewrite ?IH; reflexivity. Qed.

Definition plog (p : pruner K) (m0 : list entry) (log : list (K * bool)) (m : list entry) : Prop :=
  (forall l1 k b l2, log = l1 ++ (k, b) :: l2 -> p l1 k = Some b)
  /\ (forall l1 k b l2, log = l1 ++ (k, b) :: l2 -> In k (map fst m0) /\ chosen keq l1 k = false)
  /\ Permutation m (filter (fun e => negb (chosen keq log (fst e))) m0).
Lemma plog_snoc p m0 log m k o b : plog p m0 log m -> In (k, o) m -> p log k = Some b ->
  plog p m0 (log ++ [(k, b)]) (if b then mdelete keq k m else m).
Proof.
  intros (A & B & C) I E. assert (I0 := Permutation_in _ C I). apply filter_In in I0. destruct I0 as (I0 & Ch). cbn [fst] in Ch.
  split; [|split].
  - intros l1 k' b' l2 X. apply snoc_split in X. destruct X as [(-> & <- & Y)|(l2' & -> & ->)]; [congruence|eapply A; reflexivity].
  - intros l1 k' b' l2 X. apply snoc_split in X. destruct X as [(-> & <- & Y)|(l2' & -> & ->)]; [|eapply B; reflexivity].
    injection Y as -> ->. split; [apply in_map_iff; exists (k, o); auto|]. now apply negb_true_iff.
  - destruct b.
    + unfold mdelete. rewrite (filter_perm _ _ _ C), filter_filter. erewrite filter_ext; [reflexivity|]. intros e. cbv beta. rewrite chosen_snoc, andb_true_r, negb_orb. reflexivity.
    + rewrite C. erewrite filter_ext; [reflexivity|]. intros e. cbv beta. rewrite chosen_snoc, andb_false_r, orb_false_r. reflexivity.
Qed.

Lemma prune_rel p m0 nx lk : forall fuel st m v n css fl it rem log,
  RelM (data st) (mk_ms (strip m) v) n -> length (mem st) = nx -> HeapOK (mem st) (objs m ++ lk) ->
  rep (@vhash K V khash) (data st) css fl -> it_at (data st) css it rem ->
  Permutation (map snd (live_of (chains (data st)) (concat css))) (strip m) ->
  plog p m0 log m ->
  (forall i d, In (i, d) (live_of (chains (data st)) (concat css)) -> In i rem \/ In (fst d, false) log) ->
  length m * Datatypes.S (length (chains (data st))) + length rem <= fuel ->
  exists st' log' th m' v', opruneLoop khash keq kdef fuel p log st it = Ok (st', OCalls log' th)
    /\ pruned keq p m0 log' th m' /\ RelM (data st') (mk_ms (strip m') v') n /\ length (mem st') = nx /\ HeapOK (mem st') (objs m' ++ lk).
Proof.
  induction fuel as [|fuel IH]; intros st m v n css fl it rem log HR HL HH Rp A P PL HK HF.
  - assert (rem = []) by (apply length_zero_iff_nil; lia). subst rem. cbn [opruneLoop]. rewrite (it_eqb_end _ _ _ _ A).
    exists st, log, false, m, v. split; [reflexivity|]. split; [|auto]. destruct PL as (P1 & P2 & P3). split; [exact P1|]. split; [exact P2|]. split; [exact P3|].
    intros k Hk. apply in_map_iff in Hk. destruct Hk as (e & <- & He).
    assert (He' : In (strip1 e) (map snd (live_of (chains (data st)) (concat css)))) by (eapply Permutation_in; [apply Permutation_sym; exact P|apply in_map; exact He]).
    apply in_map_iff in He'. destruct He' as ((i & d) & Ed & Hd). cbn [snd] in Ed. destruct (HK i d Hd) as [[]|X]. rewrite Ed in X. exact X.
  - cbn [opruneLoop]. rewrite (it_eqb_end _ _ _ _ A). destruct rem as [|i rem].
    + exists st, log, false, m, v. split; [reflexivity|]. split; [|auto]. destruct PL as (P1 & P2 & P3). split; [exact P1|]. split; [exact P2|]. split; [exact P3|].
      intros k Hk. apply in_map_iff in Hk. destruct Hk as (e & <- & He).
      assert (He' : In (strip1 e) (map snd (live_of (chains (data st)) (concat css)))) by (eapply Permutation_in; [apply Permutation_sym; exact P|apply in_map; exact He]).
      apply in_map_iff in He'. destruct He' as ((i & d) & Ed & Hd). cbn [snd] in Ed. destruct (HK i d Hd) as [[]|X]. rewrite Ed in X. exact X.
    + destruct (it_step _ _ _ _ _ _ _ Rp A) as (it' & d & nxt & Ei & Eloc & E1 & E2 & A' & l0 & l & Ec & Hrem & Hl1 & Hl2).
      rewrite E1. cbn [bind].
      assert (Hd : In (i, d) (live_of (chains (data st)) (concat css))). { apply in_live_of. split; [|exists nxt; exact Ei]. eapply in_concat_nth; [exact Ec|]. apply in_or_app. right. now left. }
      assert (Hdm : In d (strip m)) by (eapply Permutation_in; [exact P|]; apply in_map_iff; exists (i, d); auto).
      assert (Hdm' := Hdm). apply in_map_iff in Hdm'. destruct Hdm' as ((k & o) & Ed & He). subst d. cbn [strip1 fst snd] in *.
      destruct (p log k) as [[|]|] eqn:Ep.
      * assert (HR' := HR). destruct HR' as (B1 & B2 & B3 & Dv & U & _). cbn [ms_map] in U. assert (Um := proj1 (uniq_strip m) U).
        assert (F : mfind keq k m = Some o) by (apply (mfind_some keq m k (k, o) Um He); apply keq_refl).
        destruct (mfind_split m k o Um F) as (k1 & Ek1 & I1 & Pm & _).
        assert (HD : exists h', hdelete (mem st) (option_map fst o) = Ok h' /\ HeapOK h' (objs (mdelete keq k m) ++ lk) /\ length h' = nx).
        { destruct o as [(a & s)|]; cbn [option_map fst].
          - assert (H1 : HeapOK (mem st) ((a, s) :: objs (mdelete keq k m) ++ lk)) by (eapply heap_perm; [|exact HH]; rewrite (objs_perm _ _ Pm); reflexivity).
            destruct (heap_delete _ a s _ H1) as (h' & E & H2 & L2). exists h'. split; [exact E|]. split; [exact H2|lia].
          - exists (mem st). split; [reflexivity|]. split; [|exact HL]. eapply heap_perm; [|exact HH]. rewrite (objs_perm _ _ Pm). reflexivity. }
        destruct HD as (h' & Eh & Hh' & Lh'). rewrite Eh. cbn [bind].
        unfold hm_remove. destruct (ht_remove_spec (@vhash K V khash) (@vequal K V keq) (kdef, None) (data st) _ (fullval None k) true (EHm khash keq khash_eq) (ex_intro _ css (ex_intro _ fl (conj Rp eq_refl)))) as [(t' & l' & i' & b & E & L' & P' & Eq & Kp)|(E & Hn)].
        2:{ exfalso. specialize (Hn i _ Hd). unfold vequal in Hn. cbn [fst fullval] in Hn. rewrite keq_refl in Hn. discriminate. }
        rewrite E. cbn [bind]. unfold vequal in Eq. cbn [fst fullval] in Eq.
        assert (HR2 : RelM t' (mk_ms (mdelete keq k (strip m)) v) n). { refine (delete_perm khash keq 2 1 keq_refl keq_sym keq_trans (data st) t' (mk_ms (strip m) v) n l' i' b k HR Kp L' _ Eq). eexists. split; [exists css, fl; split; [exact Rp|reflexivity]|]. split; [exact P|exact P']. }
        assert (P2 : Permutation (strip m) (b :: map snd l')) by (rewrite <- P, P'; reflexivity).
        assert (Hbd : b = strip1 (k, o)). { eapply uniq_in; [exact U| |exact Hdm|exact Eq|apply keq_refl]. eapply Permutation_in; [apply Permutation_sym; exact P2|now left]. } subst b.
        destruct L' as (css' & fl' & R2 & ->). assert (Kp' := Kp). destruct Kp' as (K1 & K2 & K3 & K4).
        assert (Hc : cur_chain it < length (entry_points (data st))). { destruct A as [(_ & C)|(? & ? & ? & C & _)]; [discriminate|exact C]. }
        assert (Ait : exists it2, it_partialReset t' it = Ok it2 /\ it_at t' css' it2 (concat (skipn (cur_chain it) css'))).
        { unfold it_partialReset. destruct (nth_error (entry_points t') (cur_chain it)) as [e|] eqn:Ee; [|apply nth_error_None in Ee; lia].
          eexists. split; [reflexivity|]. pose proof (findNonempty_at (@vhash K V khash) t' css' fl' (cur_chain it) R2 ltac:(lia)) as Fn. clear - Fn Ee K1 Hc.
          unfold findNonemptyChain in *. cbn [cur_chain chain_loc] in *.
          destruct (nth_error (entry_points t') (skip_empty (length (entry_points t')) (entry_points t') (cur_chain it))) as [e'|] eqn:E2; [exact Fn|].
          assert (e = None). { destruct e as [j|]; [|reflexivity]. exfalso. assert (S0 : skip_empty (length (entry_points t')) (entry_points t') (cur_chain it) = cur_chain it) by (destruct (length (entry_points t')); [reflexivity|]; cbn [skip_empty]; rewrite Ee; reflexivity). rewrite S0 in E2. congruence. }
          subst e. exact Fn. }
        destruct Ait as (it2 & Er & A2). rewrite Er. cbn [bind].
        assert (P3 : Permutation (map snd (live_of (chains t') (concat css'))) (strip (mdelete keq k m))) by (rewrite mdelete_strip; eapply (mdelete_perm keq keq_refl keq_sym keq_trans); [exact U|exact P2|exact Eq]).
        eapply (IH (mk_os t' h') (mdelete keq k m) v n css' fl' it2 (concat (skipn (cur_chain it) css'))).
        -- cbn [data]. rewrite mdelete_strip. exact HR2.
        -- exact Lh'.
        -- exact Hh'.
        -- exact R2.
        -- exact A2.
        -- exact P3.
        -- exact (plog_snoc p m0 log m k o true PL He Ep).
        -- cbn [data]. intros j x Hj. assert (Hj0 := Hj). apply in_live_of in Hj. destruct Hj as (Hj & nj & Ej). destruct (in_concat_ex _ _ Hj) as (hh & c & Ehh & Hjc).
           pose proof (r_hash _ _ _ _ R2 hh c j x nj Ehh Hjc Ej) as Bh.
           assert (Hjt : In (j, x) (live_of (chains (data st)) (concat css))) by (eapply Permutation_in; [apply Permutation_sym; exact P'|now right]).
           destruct (HK j x Hjt) as [HKj|HKj]; [|right; apply in_or_app; now left]. left. apply in_live_of in Hjt. destruct Hjt as (Hjt & nj' & Ejt).
           assert (Hge : exists h2 c2, cur_chain it <= h2 /\ nth_error css h2 = Some c2 /\ In j c2).
           { rewrite Hrem in HKj. destruct HKj as [<-|HKj]; [exists (cur_chain it), (l0 ++ i :: l); split; [lia|]; split; [exact Ec|]; apply in_or_app; right; now left|]. apply in_app_or in HKj. destruct HKj as [HKj|HKj]; [exists (cur_chain it), (l0 ++ i :: l); split; [lia|]; split; [exact Ec|]; apply in_or_app; right; now right|].
             apply in_concat in HKj. destruct HKj as (c2 & Hc2 & Hj2). apply In_nth_error in Hc2. destruct Hc2 as (h2 & Eh2). rewrite nth_error_skipn' in Eh2. exists (Datatypes.S (cur_chain it) + h2), c2. split; [lia|]. auto. }
           destruct Hge as (h2 & c2 & Hge & Eh2 & Hj2). pose proof (r_hash _ _ _ _ Rp h2 c2 j x nj' Eh2 Hj2 Ejt) as Bh2. rewrite K1 in Bh. rewrite Bh in Bh2. subst h2. eapply skipn_concat_ge; eauto.
        -- cbn [data]. rewrite K2.
           assert (LS : length (concat (skipn (cur_chain it) css')) <= length (chains (data st))). { pose proof (rep_len _ _ _ _ R2) as RL. rewrite <- (firstn_skipn (cur_chain it) css') in RL at 1. rewrite concat_app, app_length in RL. rewrite K2 in RL. lia. }
           pose proof (Permutation_length Pm) as LF. cbn [length] in LF. rewrite LF in HF. cbn [length] in HF. clear - HF LS. nia.
      * rewrite E2. cbn [bind]. eapply (IH st m v n css fl it' rem); eauto.
        -- exact (plog_snoc p m0 log m k o false PL He Ep).
        -- intros j x Hj. destruct (HK j x Hj) as [[<-|H]|H]; [|now left|right; apply in_or_app; now left].
           right. apply in_live_of in Hj. destruct Hj as (_ & nj & Ej). rewrite Ei in Ej. injection Ej as <- _. apply in_or_app. right. now left.
        -- cbn [length] in HF. clear - HF. lia.
      * exists st, log, true, m, v. split; [reflexivity|]. split; [|auto]. destruct PL as (P1 & P2 & P3). split; [exact P1|]. split; [exact P2|]. split; [exact P3|]. exists k. split; [apply in_map_iff; exists (k, o); auto|exact Ep].
Qed.
Lemma oprune_rel p st s n : R st s n -> exists st' log th m', oprune khash keq kdef p st = Ok (st', OCalls log th) /\ pruned keq p (entries s) log th m' /\ R st' (mk_ts m' (next s) (leaked s)) n.
Proof.
  intros ((v & HM) & HL & HH). assert (HM' := HM). destruct HM' as (_ & _ & _ & _ & _ & l & (css & fl & Rp & ->) & P). cbn [ms_map] in P. unfold oprune.
  destruct (prune_rel p (entries s) (next s) (leaked s) (fuel_of (data st) * fuel_of (data st)) st (entries s) v n css fl (ht_begin (data st) 0) (concat css) [] HM HL HH Rp (ht_begin_at _ _ css fl Rp) P) as (st' & log & th & m' & v' & E & Pr & HM' & HL' & HH').
  - split; [intros [|? ?] k b l2 X; discriminate X|]. split; [intros [|? ?] k b l2 X; discriminate X|]. cbn [chosen existsb negb]. rewrite filter_id; [reflexivity|]. auto.
  - intros i d Hi. left. now apply in_live_of in Hi.
  - pose proof (rep_len _ _ _ _ Rp) as RL. pose proof (Permutation_length P) as PL. pose proof (f_equal (@length nat) (rep_live_fst _ _ _ _ Rp)) as FL. unfold strip in PL. rewrite !map_length in PL. rewrite map_length in FL. unfold fuel_of. clear - RL PL FL. nia.
  - exists st', log, th, m'. split; [exact E|]. split; [exact Pr|]. split; [exists v'; exact HM'|]. split; [exact HL'|exact HH'].
Qed.

Lemma size_rel st s n : R st s n -> hm_size (data st) = length (entries s).
Proof.
  intros ((v & A & B & C & D & U & l & L & P) & _). unfold hm_size. destruct (Live_size _ _ _ L) as (-> & _). cbn [ms_map] in P. pose proof (Permutation_length P) as X. unfold strip in X. rewrite !map_length in X. exact X.
Qed.
Lemma R_le st s n n' : R st s n -> n <= n' -> R st s n'.
Proof. intros ((v & H) & H') L. split; [exists v; eapply RelM_le; eauto|exact H']. Qed.

Theorem step_rel st s n o : R st s n -> room n ->
  match ostep khash keq kdef klt fresh checked st o with
  | Ok (st', out) => exists s', tstep keq klt fresh checked s o (Ok (out, s')) /\ R st' s' (Datatypes.S n)
  | Abort => tstep keq klt fresh checked s o Abort
  | UB => tstep keq klt fresh checked s o UB
  | Fuel => False
  end.
Proof.
  intros HR Hn. assert (HRS : R st s (Datatypes.S n)) by (eapply R_le; [exact HR|lia]).
  destruct o as [k g md|a| | |f|f|ks z md f|p|].
  - apply touch_rel; assumption.
  - cbn [ostep]. destruct HR as (_ & HL & HH). destruct (in_dec Nat.eq_dec a (map fst (existing s))) as [I|N].
    + apply in_map_iff in I. destruct I as ((b & x) & Eb & I). cbn in Eb. subst b. rewrite (heap_get _ _ _ _ HH I). cbn [bind]. exists s. split; [now constructor|exact HRS].
    + rewrite (heap_get_none _ _ _ HH N). cbn [bind]. now constructor.
  - cbn [ostep]. rewrite (size_rel st s n HR). exists s. split; [constructor|exact HRS].
  - cbn [ostep]. destruct HR as (_ & HL & HH). rewrite (heap_live _ _ HH). exists s. split; [constructor|exact HRS].
  - cbn [ostep]. unfold owalk. destruct (iterate_rel st s n HR) as (o & E & P). rewrite E. cbn [bind]. destruct s as [m nx lk]. destruct HR as ((v & HM) & HL & HH). cbn [entries next] in *. unfold existing in HH. cbn [entries leaked] in HH.
    pose proof (visit_rel f o (mem st) lk) as X. assert (HH1 : HeapOK (mem st) (objs o ++ lk)) by (eapply heap_perm; [|exact HH]; now rewrite (objs_perm _ _ P)). specialize (X HH1).
    destruct (visit f o) as [((m' & rows) & th)|] eqn:Ev.
    + destruct X as (h' & E' & H' & L' & Sm). rewrite E'. cbn [bind]. eexists. split; [eapply s_walk; eauto|]. split; [exists v; cbn [entries data]; rewrite Sm; eapply RelM_le; [eapply RelM_perm; [apply strip_perm; exact P|exact HM]|lia]|]. split; [cbn; lia|exact H'].
    + rewrite X. cbn [bind]. eapply s_walk_null; eauto.
  - cbn [ostep]. unfold owalkOrdered. assert (U := R_uniq _ _ _ HR). destruct (iterate_rel st s n HR) as (o & E & P). rewrite E. cbn [bind]. destruct s as [m nx lk]. destruct HR as ((v & HM) & HL & HH). cbn [entries next] in *. unfold existing in HH. cbn [entries leaked] in HH.
    assert (Uo : uniq keq (strip o)) by (apply uniq_strip; eapply uniq_perm; eauto).
    destruct (Permutation_map_inv _ _ (sort_perm (strip o))) as (o' & Eo & Po).
    assert (P' : Permutation m o') by (now rewrite P).
    assert (So : StronglySorted (fun a b => klt a b = true) (map fst o')).
    { replace (map fst o') with (map fst (sort klt (strip o))); [apply sorted_keys, sort_sorted, Uo|]. rewrite Eo. unfold strip. rewrite map_map. now apply map_ext. }
    rewrite Eo. fold (strip o'). pose proof (visit_rel f o' (mem st) lk) as X. assert (HH1 : HeapOK (mem st) (objs o' ++ lk)) by (eapply heap_perm; [|exact HH]; now rewrite (objs_perm _ _ P')). specialize (X HH1).
    destruct (visit f o') as [((m' & rows) & th)|] eqn:Ev.
    + destruct X as (h' & E' & H' & L' & Sm). rewrite E'. cbn [bind]. eexists. split; [eapply s_ordered; [exact P'|exact So|exact Ev]|]. split; [exists v; cbn [entries data]; rewrite Sm; eapply RelM_le; [eapply RelM_perm; [apply strip_perm; exact P'|exact HM]|lia]|]. split; [cbn; lia|exact H'].
    + rewrite X. cbn [bind]. eapply s_ordered_null; eauto.
  - cbn [ostep]. unfold owalkZeros. destruct md; [|exists s; split; [constructor|exact HRS]|constructor].
    destruct s as [m nx lk]. destruct HR as ((v & HM) & HL & HH). cbn [entries next] in *. unfold existing in HH. cbn [entries leaked] in HH. cbn [halloc].
    pose proof (heap_alloc (mem st) fresh _ HH) as HA. cbn [halloc fst] in HA. rewrite (heap_get _ _ _ _ HA) by (now left). cbn [bind].
    destruct (heap_set _ _ _ (z fresh) _ HA) as (h1 & -> & H1 & L1). cbn [bind]. rewrite HL in *. assert (H1' : HeapOK h1 (objs m ++ (nx, z fresh) :: lk)) by (eapply heap_perm; [apply Permutation_middle|exact H1]).
    pose proof (zvisit_rel f (data st) n v nx ks m h1 (z fresh) lk HM H1') as X. rewrite app_length, HL in L1. cbn [length] in L1.
    destruct (zvisit keq f ks m nx (z fresh)) as [(((m' & z') & rows) & th)|] eqn:Ez.
    + destruct X as (h' & -> & H' & L' & HM'). cbn [bind]. destruct th.
      * eexists. split; [eapply s_zeros_leak; exact Ez|]. split; [exists v; eapply RelM_le; [exact HM'|lia]|]. split; [cbn [mem next]; lia|exact H'].
      * assert (H2 : HeapOK h' ((nx, z') :: objs m' ++ lk)) by (eapply heap_perm; [apply Permutation_sym, Permutation_middle|exact H']).
        destruct (heap_delete h' nx z' _ H2) as (h2 & -> & H3 & L3). cbn [bind]. eexists. split; [eapply s_zeros; exact Ez|]. split; [exists v; eapply RelM_le; [exact HM'|lia]|]. split; [cbn [mem next]; lia|exact H3].
    + rewrite X. cbn [bind]. eapply s_zeros_nullentry; exact Ez.
  - cbn [ostep]. destruct (oprune_rel p st s n HR) as (st' & log & th & m' & E & Pr & R'). rewrite E. exists (mk_ts m' (next s) (leaked s)). split; [|eapply R_le; [exact R'|lia]]. destruct s. now constructor.
  - cbn [ostep]. destruct (clear_rel st s n HR) as (st' & E & R'). rewrite E. cbn [bind]. eexists. split; [|eapply R_le; [exact R'|lia]]. destruct s. constructor.
Qed.

Lemma new_rel : exists st, onew (K := K) (S := S) = Ok st /\ R st (mk_ts [] 0 []) 0.
Proof.
  unfold onew. destruct (hm_new (K := K) (V := V) 2 1) as [t| | |] eqn:E; try discriminate. cbn [bind]. eexists. split; [reflexivity|].
  split; [exists true; apply (hm_new_rel khash keq 2 1 t E)|]. split; [reflexivity|apply heap_nil].
Qed.

Lemma destroy_rel st s n : R st s n -> exists h, destroy st = Ok h /\ HeapOK h (leaked s).
Proof.
  intros HR. destruct (clear_rel st s n HR) as (st' & E & _ & _ & H'). unfold destroy. rewrite E. cbn [bind]. exists (mem st'). split; [reflexivity|exact H'].
Qed.
Lemma deleteAll_dead : forall (l : list entry) (h : heap S), objs l <> [] -> (forall a s, In (a, s) (objs l) -> match nth_error h a with Some (Some _) => False | _ => True end) -> deleteAll h (strip l) = UB.
Proof.
  induction l as [|(k & [(a & s)|]) l IH]; intros h N D; cbn [strip map strip1 fst snd option_map deleteAll].
  - now destruct N.
  - cbn [hdelete]. specialize (D a s (or_introl eq_refl)). destruct (nth_error h a) as [[x|]|]; [destruct D|reflexivity|reflexivity].
  - cbn [hdelete bind]. apply IH; [exact N|exact D].
Qed.
Lemma copy_rel st s n : R st s n -> objs (entries s) <> [] -> destroyCopyToo st = UB.
Proof.
  intros HR N. unfold destroyCopyToo. destruct (destroy_rel st s n HR) as (h & E & H). rewrite E. cbn [bind].
  destruct (iterate_rel st s n HR) as (o & Eo & P). unfold destroy, oclear. cbn [data mem]. rewrite Eo. cbn [bind].
  rewrite deleteAll_dead; [reflexivity| |].
  - intros X. apply N. pose proof (Permutation_length (objs_perm _ _ P)) as Y. rewrite X in Y. now apply length_zero_iff_nil.
  - intros a x I. destruct (nth_error h a) as [[y|]|] eqn:Ea; auto. apply (proj2 H) in Ea. destruct HR as (_ & _ & ND & _). unfold existing in ND. rewrite map_app in ND.
    assert (I' : In a (map fst (objs (entries s)))). { apply in_map_iff. exists (a, x). split; [reflexivity|]. eapply Permutation_in; [apply Permutation_sym, (objs_perm _ _ P)|exact I]. }
    assert (J' : In a (map fst (leaked s))) by (apply in_map_iff; exists (a, y); auto).
    clear - ND I' J'. induction (map fst (objs (entries s))) as [|b l IH]; [destruct I'|]. cbn [app] in ND. inversion ND as [|? ? N1 N2]; subst. destruct I' as [->|I']; [apply N1; apply in_or_app; now right|auto].
Qed.

Theorem run_rel ops : forall st s n, R st s n -> room (n + length ops) -> exists outs e e', orun khash keq kdef klt fresh checked st ops = (outs, e) /\ thist keq klt fresh checked s ops outs e' /\
  match e, e' with Some st', Some s' => R st' s' (n + length ops) | None, None => True | _, _ => False end.
Proof.
  induction ops as [|o ops IH]; intros st s n HR Hn; cbn [orun].
  - exists [], (Some st), (Some s). split; [reflexivity|]. split; [constructor|]. eapply R_le; [exact HR|lia].
  - cbn [length] in Hn. pose proof (step_rel st s n o HR ltac:(eapply room_mono; [|exact Hn]; lia)) as X.
    destruct (ostep khash keq kdef klt fresh checked st o) as [(st' & out)| | |].
    + destruct X as (s' & T & R'). destruct (IH st' s' (Datatypes.S n) R' ltac:(replace (Datatypes.S n + length ops) with (n + Datatypes.S (length ops)) by lia; exact Hn)) as (outs & e & e' & E & H & M). rewrite E.
      exists (Ok out :: outs), e, e'. split; [reflexivity|]. split; [eapply h_ok; eauto|]. destruct e, e'; auto. cbn [length]. replace (n + Datatypes.S (length ops)) with (Datatypes.S n + length ops) by lia. exact M.
    + exists [Abort], None, None. split; [reflexivity|]. split; [now constructor|exact I].
    + exists [UB], None, None. split; [reflexivity|]. split; [now apply h_undefined|exact I].
    + destruct X.
Qed.

(** What follows from the specification *)
Definition whole (m : list entry) : Prop := forall k, ~ In (k, None) m.
Lemma visit_whole f : forall l : list entry, whole l -> exists l' rows th, visit f l = Some (l', rows, th) /\ whole l'.
Proof.
  induction l as [|(k & [(a & s)|]) l IH]; intros W; cbn [visit].
  - exists [], [], false. auto.
  - assert (Wl : whole l) by (intros k' H; apply (W k'); now right). destruct (f k s) as (s' & th). destruct th.
    + exists ((k, Some (a, s')) :: l), [(k, (a, s))], true. split; [reflexivity|]. intros k' [X|X]; [discriminate|]. now apply (Wl k').
    + destruct (IH Wl) as (l' & rows & th & -> & W'). exists ((k, Some (a, s')) :: l'), ((k, (a, s)) :: rows), th. split; [reflexivity|]. intros k' [X|X]; [discriminate|]. now apply (W' k').
  - exfalso. apply (W k). now left.
Qed.
Lemma whole_update k o (m : list entry) : whole m -> whole (mupdate keq k (Some o) m).
Proof. intros W k' H. apply in_map_iff in H. destruct H as (e & E & I). destruct (keq k (fst e)); [discriminate|]. subst e. now apply (W k'). Qed.
Lemma mfind_in k o (m : list entry) : mfind keq k m = Some o -> exists k0, keq k k0 = true /\ In (k0, o) m.
Proof. unfold mfind. destruct (find (fun b : entry => keq k (fst b)) m) as [(k0 & o')|] eqn:F; cbn; intros X; [|discriminate]. injection X as ->. apply find_some in F. exists k0. tauto. Qed.
Lemma zvisit_whole f a : forall ks (m : list entry) z, whole m -> exists m' z' rows th, zvisit keq f ks m a z = Some (m', z', rows, th) /\ whole m' /\ ((forall k s, snd (f k s) = false) -> th = false).
Proof.
  induction ks as [|k ks IH]; intros m z W; cbn [zvisit].
  - exists m, z, [], false. auto.
  - destruct (mfind keq k m) as [[(b & s)|]|] eqn:F.
    + pose proof (fun H : forall k s, snd (f k s) = false => H k s) as Hf. destruct (f k s) as (s' & th). assert (W' := whole_update k (b, s') m W). destruct th.
      * do 4 eexists. split; [reflexivity|]. split; [exact W'|]. intros H. specialize (Hf H). discriminate.
      * destruct (IH _ z W') as (m' & z' & rows & th & -> & Wm & Ht). do 4 eexists. split; [reflexivity|]. auto.
    + exfalso. apply mfind_in in F. destruct F as (k0 & _ & I). now apply (W k0).
    + pose proof (fun H : forall k s, snd (f k s) = false => H k z) as Hf. destruct (f k z) as (z1 & th). destruct th.
      * do 4 eexists. split; [reflexivity|]. split; [exact W|]. intros H. specialize (Hf H). discriminate.
      * destruct (IH m z1 W) as (m' & z' & rows & th & -> & Wm & Ht). do 4 eexists. split; [reflexivity|]. auto.
Qed.
Lemma whole_perm (m m' : list entry) : Permutation m m' -> whole m -> whole m'.
Proof. intros P W k H. apply (W k). eapply Permutation_in; [apply Permutation_sym; exact P|exact H]. Qed.

Lemma step_well s o r : tstep keq klt fresh checked s o r -> whole (entries s) -> leaked s = [] -> well o -> (forall a, o = TDeref a -> In a (map fst (existing s))) ->
  exists out s', r = Ok (out, s') /\ whole (entries s') /\ leaked s' = [].
Proof.
  intros T W L Wo D. destruct T; cbn [entries leaked] in *; try (destruct Wo as (Wo & Wo')); try discriminate.
  - do 2 eexists. split; [reflexivity|]. split; [now apply whole_update|exact L].
  - do 2 eexists. split; [reflexivity|]. split; [|exact L]. intros k' [X|X]; [discriminate|]. now apply (W k').
  - exfalso. apply mfind_in in H. destruct H as (k0 & _ & I). now apply (W k0).
  - do 2 eexists. split; [reflexivity|]. auto.
  - exfalso. apply H. now apply D.
  - do 2 eexists. split; [reflexivity|]. auto.
  - do 2 eexists. split; [reflexivity|]. auto.
  - destruct (visit_whole f o) as (l' & rows' & th' & E & W'); [eapply whole_perm; eauto|]. rewrite E in H0. injection H0 as <- <- <-. do 2 eexists. split; [reflexivity|]. auto.
  - destruct (visit_whole f o) as (l' & rows' & th' & E & W'); [eapply whole_perm; eauto|]. congruence.
  - destruct (visit_whole f o) as (l' & rows' & th' & E & W'); [eapply whole_perm; eauto|]. rewrite E in H1. injection H1 as <- <- <-. do 2 eexists. split; [reflexivity|]. auto.
  - destruct (visit_whole f o) as (l' & rows' & th' & E & W'); [eapply whole_perm; eauto|]. congruence.
  - destruct (zvisit_whole f n ks m (z fresh) W) as (m1 & z1 & rows1 & th1 & E & W1 & _). rewrite E in H. injection H as <- <- <- <-. do 2 eexists. split; [reflexivity|]. auto.
  - destruct (zvisit_whole f n ks m (z fresh) W) as (m1 & z1 & rows1 & th1 & E & W1 & Ht). rewrite E in H. injection H as <- <- <- ->. specialize (Ht Wo'). discriminate.
  - destruct (zvisit_whole f n ks m (z fresh) W) as (m1 & z1 & rows1 & th1 & E & W1 & Ht). congruence.
  - do 2 eexists. split; [reflexivity|]. cbn [entries leaked]. split; [|exact L]. destruct H as (_ & _ & P & _). eapply whole_perm; [apply Permutation_sym; exact P|]. intros k I. apply filter_In in I. now apply (W k).
  - do 2 eexists. split; [reflexivity|]. cbn [entries leaked]. split; [intros k []|exact L].
Qed.
Lemma hist_well s ops outs e : thist keq klt fresh checked s ops outs e -> whole (entries s) -> leaked s = [] -> Forall well ops -> Forall no_deref ops ->
  Forall (fun o => exists x, o = Ok x) outs /\ length outs = length ops /\ exists s', e = Some s' /\ leaked s' = [].
Proof.
  induction 1 as [s|s o out s' r outs e T H IH|s o r T|s o r T]; intros W L Wl Nd.
  - split; [constructor|]. split; [reflexivity|]. exists s. auto.
  - inversion Wl as [|? ? W1 W2]; subst. inversion Nd as [|? ? N1 N2]; subst.
    destruct (step_well _ _ _ T W L W1) as (out' & s1 & E & W' & L'); [intros a ->; destruct N1|]. injection E as <- <-.
    destruct (IH W' L' W2 N2) as (F & Le & s2 & E2 & L2). split; [constructor; [eauto|exact F]|]. split; [cbn; now rewrite Le|]. eauto.
  - inversion Wl as [|? ? W1 W2]; subst. inversion Nd as [|? ? N1 N2]; subst. destruct (step_well _ _ _ T W L W1) as (out' & s1 & E & _); [intros a ->; destruct N1|discriminate].
  - inversion Wl as [|? ? W1 W2]; subst. inversion Nd as [|? ? N1 N2]; subst. destruct (step_well _ _ _ T W L W1) as (out' & s1 & E & _); [intros a ->; destruct N1|discriminate].
Qed.

(** A pure predicate *)
Lemma pruned_pure q (m : list entry) log m' th : (forall a b, keq a b = true -> q a = q b) -> pruned keq (fun _ k => Some (q k)) m log th m' -> th = false /\ Permutation m' (filter (fun e => negb (q (fst e))) m).
Proof.
  intros Q (A & B & C & D). assert (th = false) as -> by (destruct th; [destruct D as (k & _ & X); discriminate|reflexivity]). split; [reflexivity|].
  rewrite C. assert (X : forall e, In e m -> chosen keq log (fst e) = q (fst e)).
  { intros e He. destruct (chosen keq log (fst e)) eqn:Ch.
    - apply existsb_exists in Ch. destruct Ch as ((k & b) & I & Y). cbn [fst snd] in Y. apply andb_true_iff in Y. destruct Y as (Y & ->). destruct (in_split _ _ I) as (l1 & l2 & El). specialize (A _ _ _ _ El). injection A as A. now rewrite <- (Q _ _ Y).
    - assert (I : In (fst e, false) log). { apply D. apply in_map. eapply Permutation_in; [apply Permutation_sym; exact C|]. apply filter_In. split; [exact He|now rewrite Ch]. }
      destruct (in_split _ _ I) as (l1 & l2 & El). specialize (A _ _ _ _ El). injection A as A. now rewrite A. }
  clear - X. induction m as [|e m IH]; [reflexivity|]. cbn [filter]. rewrite (X e) by (now left). assert (IH' := IH (fun e' H => X e' (or_intror H))). destruct (q (fst e)); cbn [negb]; [exact IH'|now apply perm_skip].
Qed.

(** References stay valid *)
Definition has (k : K) (a : nat) (m : list entry) : Prop := exists k0 s, keq k k0 = true /\ In (k0, Some (a, s)) m.
Lemma has_update k a k' b s s' (m : list entry) : uniq keq m -> mfind keq k' m = Some (Some (b, s)) -> has k a m -> has k a (mupdate keq k' (Some (b, s')) m).
Proof.
  intros U F (k0 & x & Ek & I). destruct (keq k' k0) eqn:E.
  - exists k0. rewrite (mfind_some keq m k' _ U I E) in F. cbn [snd] in F. injection F as <- <-. exists s'. split; [exact Ek|]. apply in_map_iff. exists (k0, Some (a, x)). cbn [fst]. rewrite E. auto.
  - exists k0, x. split; [exact Ek|]. apply in_map_iff. exists (k0, Some (a, x)). cbn [fst]. rewrite E. auto.
Qed.
Lemma has_null k a k' o (m : list entry) : uniq keq m -> mfind keq k' m = Some None -> has k a m -> has k a (mupdate keq k' o m).
Proof.
  intros U F (k0 & x & Ek & I). destruct (keq k' k0) eqn:E.
  - rewrite (mfind_some keq m k' _ U I E) in F. discriminate.
  - exists k0, x. split; [exact Ek|]. apply in_map_iff. exists (k0, Some (a, x)). cbn [fst]. rewrite E. auto.
Qed.
Lemma has_visit f k a : forall (l l' : list entry) rows th, visit f l = Some (l', rows, th) -> has k a l -> has k a l'.
Proof.
  induction l as [|(k1 & [(b & s)|]) l IH]; intros l' rows th E (k0 & x & Ek & I); [destruct I| |discriminate]. cbn [visit] in E. destruct (f k1 s) as (s' & th1). destruct th1.
  - injection E as <- <- <-. destruct I as [I|I]; [injection I as -> -> ->; exists k0, s'; split; [exact Ek|now left]|exists k0, x; split; [exact Ek|now right]].
  - destruct (visit f l) as [((r' & rows') & th')|]; [|discriminate]. injection E as <- <- <-. destruct I as [I|I]; [injection I as -> -> ->; exists k0, s'; split; [exact Ek|now left]|].
    destruct (IH r' rows' th' eq_refl) as (k2 & y & E2 & I2); [exists k0, x; auto|]. exists k2, y. split; [exact E2|now right].
Qed.
Lemma uniq_update k o (m : list entry) : uniq keq m -> uniq keq (mupdate keq k o m).
Proof.
  intros U k'. specialize (U k'). replace (length (filter (fun b : entry => keq k' (fst b)) (mupdate keq k o m))) with (length (filter (fun b : entry => keq k' (fst b)) m)); [exact U|].
  clear U. induction m as [|e m IH]; [reflexivity|]. cbn [mupdate map filter]. destruct (keq k (fst e)); cbn [fst]; destruct (keq k' (fst e)); cbn [length]; auto.
Qed.
Lemma has_zvisit f k a b : forall ks (m m' : list entry) z z' rows th, uniq keq m -> zvisit keq f ks m b z = Some (m', z', rows, th) -> has k a m -> has k a m'.
Proof.
  induction ks as [|k1 ks IH]; intros m m' z z' rows th U E H; cbn [zvisit] in E; [injection E as <- <- <- <-; exact H|].
  destruct (mfind keq k1 m) as [[(c & s)|]|] eqn:F; [|discriminate|].
  - destruct (f k1 s) as (s' & th1). pose proof (has_update k a k1 c s s' m U F H) as H'. destruct th1; [injection E as <- <- <- <-; exact H'|].
    destruct (zvisit keq f ks _ b z) as [(((m1 & z1) & rows1) & th1)|] eqn:Ez; [|discriminate]. injection E as <- <- <- <-. eapply IH; [|exact Ez|exact H']. now apply uniq_update.
  - destruct (f k1 z) as (z1 & th1). destruct th1; [injection E as <- <- <- <-; exact H|].
    destruct (zvisit keq f ks m b z1) as [(((m1 & z2) & rows1) & th1)|] eqn:Ez; [|discriminate]. injection E as <- <- <- <-. eapply IH; [exact U|exact Ez|exact H].
Qed.
Lemma has_perm k a (m m' : list entry) : Permutation m m' -> has k a m -> has k a m'.
Proof. intros P (k0 & x & E & I). exists k0, x. split; [exact E|]. eapply Permutation_in; eauto. Qed.
Lemma step_has s o out s' k a : tstep keq klt fresh checked s o (Ok (out, s')) -> uniq keq (entries s) -> keeps o -> has k a (entries s) -> has k a (entries s').
Proof.
  intros T U Kp H. remember (Ok (out, s')) as r eqn:Er. destruct T; cbn [entries] in *; try discriminate Er; try (destruct Kp; fail); try (destruct checked; discriminate Er); injection Er as <- <-; cbn [entries] in *; auto.
  - eapply has_update; eauto.
  - destruct H as (k0' & x & E & I). exists k0', x. split; [exact E|now right].
  - eapply has_null; eauto.
  - destruct H as (k0' & x & E & I). exists k0', x. split; [exact E|now right].
  - eapply has_visit; [eassumption|]. eapply has_perm; eauto.
  - eapply has_visit; [eassumption|]. eapply has_perm; eauto.
  - eapply has_zvisit; eauto.
  - eapply has_zvisit; eauto.
Qed.
Lemma touch_has s k g m a x s' : tstep keq klt fresh checked s (TTouch k g m) (Ok (OStat a x, s')) -> has k a (entries s').
Proof.
  intros T. remember (Ok (OStat a x, s')) as r eqn:Er. remember (TTouch k g m) as o eqn:Eo. destruct T; try discriminate Er; try discriminate Eo; try (destruct checked; discriminate Er).
  - injection Er as E1 E2 E3. injection Eo as E4 E5 E6. subst. cbn [entries]. apply mfind_in in H. destruct H as (k1 & E & I). exists k1. eexists. split; [exact E|]. apply in_map_iff. eexists. split; [|exact I]. cbn [fst]. rewrite E. reflexivity.
  - injection Er as E1 E2 E3. injection Eo as E4 E5 E6. subst. cbn [entries]. do 2 eexists. split; [apply keq_refl|now left].
  - injection Er as E1 E2 E3. injection Eo as E4 E5 E6. subst. cbn [entries]. apply mfind_in in H. destruct H as (k1 & E & I). exists k1. eexists. split; [exact E|]. apply in_map_iff. eexists. split; [|exact I]. cbn [fst]. rewrite E. reflexivity.
Qed.
Lemma run_has ops : forall st s n k a outs st', R st s n -> room (n + length ops) -> Forall keeps ops -> has k a (entries s) -> orun khash keq kdef klt fresh checked st ops = (outs, Some st') ->
  exists s', R st' s' (n + length ops) /\ has k a (entries s').
Proof.
  induction ops as [|o ops IH]; intros st s n k a outs st' HR Hn Kp H E; cbn [orun length] in *.
  - injection E as <- <-. exists s. split; [eapply R_le; [exact HR|lia]|exact H].
  - inversion Kp as [|? ? K1 K2]; subst. pose proof (step_rel st s n o HR ltac:(eapply room_mono; [|exact Hn]; lia)) as X.
    destruct (ostep khash keq kdef klt fresh checked st o) as [(st1 & out)| | |]; [|discriminate E|discriminate E|discriminate E].
    destruct X as (s1 & T & R1). destruct (orun khash keq kdef klt fresh checked st1 ops) as (outs1 & e1) eqn:E1. injection E as <- ->.
    destruct (IH st1 s1 (Datatypes.S n) k a outs1 st' R1 ltac:(replace (Datatypes.S n + length ops) with (n + Datatypes.S (length ops)) by lia; exact Hn) K2 (step_has _ _ _ _ _ _ T (R_uniq _ _ _ HR) K1 H) E1) as (s' & R' & H').
    exists s'. split; [replace (n + Datatypes.S (length ops)) with (Datatypes.S n + length ops) by lia; exact R'|exact H'].
Qed.
End P.
