(** HashTable_Model refines HashTable_Spec. *)
From Coq Require Import List Arith NArith Lia Bool Permutation.
From Verif Require Import Common CommonFacts HashTable_Model HashTable_Spec HashTable_Proofs.
Import ListNotations.

Section R.
Context {D : Type}.
Variable hashfn : D -> N.
Variable equal : D -> D -> bool.
Variable default : D.
Variables num den : nat.
Hypothesis EH : forall a b, equal a b = true -> hashfn a = hashfn b.

Definition Rel (t : ht D) (s : tstate D) : Prop :=
  tcl_num t = num /\ tcl_den t = den /\ length (chains t) <= ts_adds s
  /\ (chains t = [] -> ts_adds s = 0)
  /\ exists l, Live hashfn t l /\ Permutation (map snd l) (ts_elems s).

Lemma Rel_keeps t t' s c' l' :
  Rel t s -> keeps_size t t' -> Live hashfn t' l' -> Permutation (map snd l') c' ->
  Rel t' (mk_ts c' (ts_adds s)).
Proof. intros (H1 & H2 & H3 & H4 & _) (K1 & K2 & K3 & K4) L P.
  unfold Rel; simpl. rewrite K2, K3, K4. repeat split; auto.
  - intros E; apply H4. rewrite E in K2; simpl in K2. now apply length_zero_iff_nil.
  - eauto. Qed.

Lemma absent_perm k (l : list (nat * D)) c :
  Permutation (map snd l) c -> (forall i d, In (i, d) l -> equal k d = false) -> absent equal k c.
Proof. intros P H d Hd. apply (Permutation_in _ (Permutation_sym P)), in_map_iff in Hd.
  destruct Hd as ([i d'] & <- & Hi). eauto. Qed.

Lemma in_snd i d (l : list (nat * D)) c : Permutation (map snd l) c -> In (i, d) l -> In d c.
Proof. intros P H. apply (Permutation_in _ P), in_map_iff. now exists (i, d). Qed.

Lemma filter_split_perm {A} (f : A -> bool) l : Permutation l (filter f l ++ filter (fun x => negb (f x)) l).
Proof. induction l as [|x l IH]; simpl; auto. destruct (f x); simpl.
  - now constructor.
  - rewrite <- Permutation_middle. now constructor. Qed.

Lemma map_snd_filter (p : D -> bool) (l : list (nat * D)) :
  map snd (filter (fun x => p (snd x)) l) = filter p (map snd l).
Proof. induction l as [|x l IH]; simpl; auto. destruct (p (snd x)); simpl; congruence. Qed.

Lemma filter_perm {A} (f : A -> bool) l l' : Permutation l l' -> Permutation (filter f l) (filter f l').
Proof. induction 1; simpl; auto.
  - destruct (f x); auto.
  - destruct (f x), (f y); auto using perm_swap.
  - etransitivity; eauto. Qed.

Lemma add_refines t s d : Rel t s ->
  (exists t' i s', internalAdd hashfn t d = Ok (t', i) /\ deref t' i = Ok d
      /\ Rel t' s' /\ ts_adds s' = S (ts_adds s) /\ Permutation (ts_elems s') (d :: ts_elems s))
  \/ (internalAdd hashfn t d = Abort /\ at_limit num den s).
Proof.
  intros (H1 & H2 & H3 & H4 & l & L & P).
  destruct (internalAdd_spec hashfn t l d L) as [(t' & l' & i & E & L' & P' & Hlen & Hpos & Hn & Hd)|(E & F)].
  - left. exists t', i, (mk_ts (map snd l') (S (ts_adds s))). split; auto.
    split. { unfold deref. destruct (Live_get hashfn t' l' i d L') as (n & En).
      - eapply Permutation_in; [apply Permutation_sym; exact P'|simpl; auto].
      - rewrite (get_Some _ _ _ En); reflexivity. }
    split; [|split; simpl; auto].
    + unfold Rel; simpl. repeat split; try congruence; try lia.
      * intros E0. rewrite E0 in Hpos; simpl in Hpos; lia.
      * eauto.
    + rewrite P'. simpl. now constructor.
  - right; split; auto. unfold table_full in F. unfold at_limit, largest_table.
    rewrite H1, H2 in F. fold max_prime. etransitivity; [exact F|]. apply N.mul_le_mono_r. lia.
Qed.

Lemma step_refines t s o : Rel t s ->
  (exists t' out s', ht_step hashfn equal default t o = Ok (t', out) /\ tstep equal num den s o out s' /\ Rel t' s')
  \/ (ht_step hashfn equal default t o = Abort /\ taborts equal num den s o).
Proof.
  intros HR. assert (HR0 := HR). destruct HR0 as (H1 & H2 & H3 & H4 & l & L & P).
  destruct o as [d|d|k|k must|k|p| |n| | | |a b]; cbn [ht_step].
  - (* add *) unfold ht_add.
    destruct (add_refines t s d HR) as [(t' & i & s' & E & Dr & R' & Ha & Pe)|(E & F)]; rewrite E; cbn [bind].
    + left. rewrite Dr; cbn [bind]. do 3 eexists; split; [reflexivity|]. split; [|exact R'].
      destruct s' as [c' a']; simpl in *; subst. now constructor.
    + right; split; auto. now constructor.
  - (* addOrReplace *) unfold ht_addOrReplace.
    destruct (ht_lookup_live hashfn equal t l d EH L) as [(i & d' & E & Hi & Eq)|(E & Hn)]; rewrite E; cbn [bind].
    + left. destruct (Live_get hashfn t l i d' L Hi) as (n & En). unfold deref.
      rewrite (get_Some _ _ _ En); cbn [bind].
      do 3 eexists; split; [reflexivity|]. split; [|exact HR]. apply S_aor_old; eauto using in_snd.
    + assert (Ha : absent equal d (ts_elems s)) by eauto using absent_perm.
      destruct (add_refines t s d HR) as [(t' & i & s' & E' & Dr & R' & Had & Pe)|(E' & F)]; rewrite E'; cbn [bind].
      * left. rewrite Dr; cbn [bind]. do 3 eexists; split; [reflexivity|]. split; [|exact R'].
        destruct s' as [c' a']; simpl in *; subst. now constructor.
      * right; split; auto. now apply A_aor.
  - (* lookup *)
    destruct (ht_lookup_live hashfn equal t l k EH L) as [(i & d' & E & Hi & Eq)|(E & Hn)]; rewrite E; cbn [bind].
    + left. destruct (Live_get hashfn t l i d' L Hi) as (n & En). unfold deref_opt, deref.
      rewrite (get_Some _ _ _ En); cbn [bind].
      do 3 eexists; split; [reflexivity|]. split; [|exact HR]. apply S_lookup_some; eauto using in_snd.
    + left. cbn [deref_opt bind]. do 3 eexists; split; [reflexivity|]. split; [|exact HR].
      apply S_lookup_none; eauto using absent_perm.
  - (* remove *)
    destruct (ht_remove_spec hashfn equal default t l k must EH L) as [(t' & l' & i & d & E & L' & P' & Eq & K)|(E & Hn)]; rewrite E.
    + left. cbn [bind]. do 3 eexists; split; [reflexivity|]. split.
      * eapply S_remove with (d := d) (c' := map snd l'); auto. rewrite <- P, P'. reflexivity.
      * eapply Rel_keeps; eauto.
    + assert (Ha : absent equal k (ts_elems s)) by eauto using absent_perm.
      destruct must; cbn [bind].
      * right; split; auto. now constructor.
      * left. do 3 eexists; split; [reflexivity|]. split; [|exact HR]. now constructor.
  - (* find+erase *)
    destruct (ht_find_erase_spec hashfn equal default t l k EH L) as [(it & t' & l' & i & d & E & Ee & Ed & Et & L' & P' & Eq & K)|(it & E & Ee & Hn)];
      rewrite E; cbn [bind]; rewrite Ee.
    + rewrite Ed, Et; cbn [bind]. left. do 3 eexists; split; [reflexivity|]. split.
      * eapply S_ferase with (d := d) (c' := map snd l'); auto. rewrite <- P, P'. reflexivity.
      * eapply Rel_keeps; eauto.
    + left. do 3 eexists; split; [reflexivity|]. split; [|exact HR]. apply S_ferase_none; eauto using absent_perm.
  - (* erase_if *)
    destruct (ht_erase_if_spec hashfn default p t l L) as (t' & l' & E & L' & K & P'). rewrite E; cbn [bind].
    left. do 3 eexists; split; [reflexivity|]. split; [|eapply Rel_keeps; eauto].
    apply S_eraseif; auto.
    assert (Q : Permutation (filter (fun x => p (snd x)) l ++ l')
                            (filter (fun x => p (snd x)) l ++ filter (fun x => negb (p (snd x))) l)).
    { rewrite <- P'. apply filter_split_perm. }
    apply Permutation_app_inv_l in Q. rewrite Q.
    rewrite (map_snd_filter (fun d => negb (p d))). now apply filter_perm.
  - (* clear *) left. do 3 eexists; split; [reflexivity|]. split; [constructor|].
    unfold Rel; simpl. repeat split; auto. exists []; split; auto. eapply ht_clear_spec; eauto.
  - (* reserve *)
    destruct (ht_reserve_spec hashfn t l n L) as [(t' & E & Hl & L' & C & C' & Hn & Hd & Hw)|(E & F)]; rewrite E; cbn [bind].
    + left. do 3 eexists; split; [reflexivity|]. split.
      * constructor; [exact (H4 C)|]. unfold reserve_want in Hw. rewrite H1, H2 in Hw. exact Hw.
      * unfold Rel. rewrite Hn, Hd, C'. simpl. repeat split; auto; try lia.
        exists []; split; auto. subst l. exact P.
    + right; split; auto. constructor. destruct F as [F|F].
      * left. intros Z. apply F. apply length_zero_iff_nil. lia.
      * right. unfold reserve_fits, largest_table. unfold reserve_want in F. rewrite H1, H2 in F.
        unfold max_prime in F. lia.
  - (* size *) left. do 3 eexists; split; [reflexivity|]. split; [|exact HR].
    destruct (Live_size hashfn t l L) as (-> & _). rewrite <- (map_length snd), (Permutation_length P). constructor.
  - (* verify *) rewrite (ht_verify_spec hashfn t l L); cbn [bind]. left. do 3 eexists; split; [reflexivity|]. split; [constructor|exact HR].
  - (* iterate *) rewrite (ht_iterate_spec hashfn t l L); cbn [bind]. left. do 3 eexists; split; [reflexivity|]. split; [|exact HR].
    now constructor.
  - (* random *) assert (X := ht_randomlookup_spec hashfn t l a b L). destruct l as [|x l].
    + rewrite X; cbn [bind deref_opt]. left. do 3 eexists; split; [reflexivity|]. split; [|exact HR].
      apply S_random_none. simpl in P. now apply Permutation_nil in P.
    + destruct X as (i & d & E & Hi). rewrite E; cbn [bind].
      destruct (Live_get hashfn t _ i d L Hi) as (n & En). unfold deref_opt, deref.
      rewrite (get_Some _ _ _ En); cbn [bind].
      left. do 3 eexists; split; [reflexivity|]. split; [|exact HR]. apply S_random_some. eapply in_snd; eauto.
Qed.

Lemma run_refines ops : forall t s, Rel t s -> thist equal num den s ops (ht_run hashfn equal default t ops).
Proof. induction ops as [|o ops IH]; intros t s HR; cbn [ht_run]; [constructor|].
  destruct (step_refines t s o HR) as [(t' & out & s' & E & S' & R')|(E & A)]; rewrite E.
  - econstructor; eauto.
  - now constructor. Qed.

Lemma new_rel t : ht_new num den = Ok t -> Rel t (mk_ts [] 0).
Proof. unfold ht_new. destruct (Nat.ltb_spec 0 num), (Nat.ltb_spec 0 den); simpl; try discriminate.
  inversion 1; subst; clear H1. unfold Rel; simpl. repeat split; auto.
  exists []; split; auto. apply ht_new_spec; auto. Qed.

Lemma exec_live ops : forall t s t', Rel t s -> ht_exec hashfn equal default t ops = Ok t' ->
  exists s', Rel t' s'.
Proof. induction ops as [|o ops IH]; intros t s t' HR; cbn [ht_exec].
  - inversion 1; subst; eauto.
  - destruct (step_refines t s o HR) as [(t1 & out & s1 & E & S' & R')|(E & A)]; rewrite E; cbn [bind]; [eauto|discriminate]. Qed.
End R.
