(** HashUnique is a set. *)
From Coq Require Import List Arith NArith Lia Bool Permutation ZifyBool ZifyNat ZifyN.
From Verif Require Import Common CommonFacts HashTable_Model HashTable_Spec HashTable_Proofs HashTable_Refine Unique_Spec Unique_Model.
Import ListNotations.

Section HUP.
Context {K : Type}.
Variable khash : K -> N.
Variable keq : K -> K -> bool.
Variable kdef : K.
Hypothesis keq_refl : forall a, keq a a = true.
Hypothesis keq_sym : forall a b, keq a b = true -> keq b a = true.
Hypothesis keq_trans : forall a b c, keq a b = true -> keq b c = true -> keq a c = true.
Hypothesis khash_eq : forall a b, keq a b = true -> khash a = khash b.

Notation mem := (member keq).
Definition distinct (s : list K) : Prop := forall k, length (filter (keq k) s) <= 1.
Definition RelU (t : ht K) (s : uset) (n : nat) : Prop :=
  exists a, Rel khash 2 1 t (mk_ts (us_set s) a) /\ a <= n /\ distinct (us_set s) /\ (us_virgin s = true <-> a = 0).
Notation room n := (N.of_nat n < 283301878)%N.

Lemma mem_true k s : mem k s = true <-> exists x, In x s /\ keq k x = true.
Proof. apply existsb_exists. Qed.
Lemma mem_false k s : mem k s = false <-> absent keq k s.
Proof.
  split.
  - intros H d Hd. destruct (keq k d) eqn:E; [|reflexivity]. assert (X : mem k s = true) by (apply mem_true; eauto). congruence.
  - intros H. destruct (mem k s) eqn:E; [|reflexivity]. apply mem_true in E. destruct E as (x & Hx & E). rewrite (H x Hx) in E. discriminate.
Qed.
Lemma Rel_perm t c c' a : Permutation c c' -> Rel khash 2 1 t (mk_ts c a) -> Rel khash 2 1 t (mk_ts c' a).
Proof. intros P (H1 & H2 & H3 & H4 & l & L & Pl). repeat split; auto. exists l. split; [exact L|]. cbn [ts_elems] in *. now rewrite <- P. Qed.
Lemma distinct_perm s s' : Permutation s s' -> distinct s -> distinct s'.
Proof. intros P H k. rewrite <- (Permutation_length (filter_perm (keq k) _ _ P)). apply H. Qed.
Lemma distinct_cons k s : distinct (k :: s) <-> distinct s /\ absent keq k s.
Proof.
  split.
  - intros H. split.
    + intros x. specialize (H x). cbn [filter] in H. destruct (keq x k); cbn [length] in H; lia.
    + intros d Hd. destruct (keq k d) eqn:E; [|reflexivity]. specialize (H k). cbn [filter] in H. rewrite keq_refl in H. cbn [length] in H. assert (I : In d (filter (keq k) s)) by (apply filter_In; auto). destruct (filter (keq k) s); [destruct I|cbn [length] in H; lia].
  - intros (H & A) x. cbn [filter]. destruct (keq x k) eqn:E; [|apply H]. cbn [length]. enough (F : filter (keq x) s = []) by (rewrite F; cbn; lia).
    destruct (filter (keq x) s) as [|y r] eqn:F; [reflexivity|]. exfalso. assert (I : In y (filter (keq x) s)) by (rewrite F; now left). apply filter_In in I. destruct I as (I & Ey). pose proof (A y I : keq k y = false). assert (keq k y = true) by (eapply keq_trans; [apply keq_sym; exact E|exact Ey]). congruence.
Qed.
Lemma filter_keep s k : absent keq k s -> filter (fun x => negb (keq k x)) s = s.
Proof. intros H. induction s as [|x s IH]; [reflexivity|]. cbn [filter]. rewrite (H x) by (now left). cbn [negb]. f_equal. apply IH. intros d Hd. apply H. now right. Qed.
Lemma room_limit a n (s : list K) : a <= n -> room n -> ~ at_limit 2 1 (mk_ts s a).
Proof. unfold at_limit, largest_table. cbn [ts_adds]. lia. Qed.
Lemma RelU_le t s n m : RelU t s n -> n <= m -> RelU t s m.
Proof. intros (a & H1 & H2 & H3 & H4) L. exists a. split; [exact H1|]. split; [lia|auto]. Qed.
Lemma lookup_step t s n k : RelU t s n -> exists v, ht_lookup khash keq t k = Ok v /\ (match v with Some _ => true | None => false end) = mem k (us_set s).
Proof.
  intros (a & (H1 & H2 & H3 & H4 & l & L & P) & _). cbn [ts_elems] in P.
  destruct (ht_lookup_live khash keq t l k khash_eq L) as [(i & d & E & Hi & Eq)|(E & Hn)]; rewrite E; eexists; (split; [reflexivity|]).
  - symmetry. apply mem_true. exists d. split; [eapply in_snd; eauto|exact Eq].
  - symmetry. apply mem_false. eapply absent_perm; eauto.
Qed.
Lemma add_step t s n k : RelU t s n -> room n -> mem k (us_set s) = false ->
  exists t' i, internalAdd khash t k = Ok (t', i) /\ RelU t' (mk_us (k :: us_set s) false) (S n).
Proof.
  intros (a & HR & Ha & HD & HV) Hn M. destruct (add_refines khash 2 1 t _ k HR) as [(t' & i & s' & E & _ & R' & A & P)|(E & F)]; [|exfalso; eapply room_limit; eauto].
  exists t', i. split; [exact E|]. exists (S a). cbn [us_set us_virgin ts_adds ts_elems] in *. split; [destruct s' as [c' a']; cbn [ts_adds ts_elems] in *; subst a'; eapply Rel_perm; eauto|]. split; [lia|]. split; [apply distinct_cons; split; [exact HD|now apply mem_false]|]. split; discriminate.
Qed.
Lemma hu_add_rel t s n k : RelU t s n -> room n ->
  exists t', hu_add khash keq t k = Ok (t', negb (mem k (us_set s))) /\ RelU t' (insert keq k s) (S n).
Proof.
  intros HR Hn. unfold hu_add, insert. destruct (lookup_step t s n k HR) as (v & E & M). rewrite E. cbn [bind]. rewrite <- M. destruct v as [i|].
  - exists t. split; [reflexivity|]. eapply RelU_le; eauto.
  - destruct (add_step t s n k HR Hn (eq_sym M)) as (t' & i & E' & R'). unfold ht_add. rewrite E'. exists t'. auto.
Qed.
Lemma hu_walk_rel t s n : RelU t s n -> exists l, hu_walk t = Ok l /\ Permutation l (us_set s).
Proof. intros (a & (_ & _ & _ & _ & l & L & P) & _). unfold hu_walk. exists (map snd l). split; [exact (ht_iterate_spec khash t l L)|exact P]. Qed.
Lemma hu_new_rel : exists t, hu_new = Ok t /\ RelU t (mk_us [] true) 0.
Proof.
  eexists. split; [reflexivity|]. exists 0. split; [apply (new_rel khash 2 1); reflexivity|]. split; [lia|]. split; [intros k; cbn; lia|split; reflexivity].
Qed.

Lemma hu_step_rel t s n o : RelU t s n -> room n ->
  match uspec keq s o with
  | Ok (s', out) => exists t' out', hu_step khash keq kdef t o = Ok (t', out') /\ uagree (Ok out') (Ok out) /\ RelU t' s' (S n)
  | Abort => hu_step khash keq kdef t o = Abort
  | _ => False
  end.
Proof.
  intros HR Hn. assert (HS : RelU t s (S n)) by (eapply RelU_le; eauto).
  destruct o as [k|k|k|k must| |m| |]; cbn [uspec hu_step].
  - unfold hu_exists. destruct (lookup_step t s n k HR) as (v & E & M). rewrite E. cbn [bind]. rewrite M. exists t. eexists. split; [reflexivity|]. split; [reflexivity|exact HS].
  - destruct (hu_add_rel t s n k HR Hn) as (t' & E & R'). rewrite E. cbn [bind]. exists t'. eexists. split; [reflexivity|]. split; [reflexivity|exact R'].
  - unfold hu_addOrReplace, ht_addOrReplace, insert. destruct (lookup_step t s n k HR) as (v & E & M). rewrite E. cbn [bind]. rewrite <- M. destruct v as [i|]; cbn [bind].
    + exists t. eexists. split; [reflexivity|]. split; [reflexivity|exact HS].
    + destruct (add_step t s n k HR Hn (eq_sym M)) as (t' & i & E' & R'). rewrite E'. cbn [bind]. exists t'. eexists. split; [reflexivity|]. split; [reflexivity|exact R'].
  - assert (HR' := HR). destruct HR' as (a & (H1 & H2 & H3 & H4 & l & L & P) & Ha & HD & HV). cbn [ts_elems ts_adds] in *. unfold hu_remove.
    destruct (ht_remove_spec khash keq kdef t l k must khash_eq L) as [(t' & l' & i & d & E & L' & P' & Eq & Kp)|(E & Hno)]; rewrite E.
    + assert (Pd : Permutation (us_set s) (d :: map snd l')) by (rewrite <- P, P'; reflexivity).
      assert (M : mem k (us_set s) = true) by (apply mem_true; exists d; split; [eapply Permutation_in; [apply Permutation_sym; exact Pd|now left]|exact Eq]). rewrite M. cbn [bind].
      exists t'. eexists. split; [reflexivity|]. split; [reflexivity|].
      assert (Dd : distinct (d :: map snd l')) by (eapply distinct_perm; eauto). apply distinct_cons in Dd. destruct Dd as (Dl & Dk).
      assert (F : Permutation (map snd l') (filter (fun x => negb (keq k x)) (us_set s))).
      { rewrite (filter_perm _ _ _ Pd). cbn [filter]. rewrite Eq. cbn [negb]. rewrite filter_keep; [reflexivity|]. intros x Hx. destruct (keq k x) eqn:Ex; [|reflexivity]. rewrite <- (Dk x Hx). symmetry. eapply keq_trans; [apply keq_sym; exact Eq|exact Ex]. }
      exists a. cbn [us_set us_virgin]. split; [eapply Rel_perm; [exact F|]; apply (Rel_keeps khash 2 1 t t' (mk_ts (us_set s) a) _ l'); [destruct HR as (a0 & HR & _); repeat split; auto; exists l; auto|exact Kp|exact L'|reflexivity]|]. split; [lia|]. split; [eapply distinct_perm; eauto|exact HV].
    + assert (M : mem k (us_set s) = false) by (apply mem_false; eapply absent_perm; eauto). rewrite M. destruct must; cbn [bind]; [reflexivity|]. exists t. eexists. split; [reflexivity|]. split; [reflexivity|exact HS].
  - exists (hu_clear t). eexists. split; [reflexivity|]. split; [reflexivity|]. destruct HR as (a & (H1 & H2 & H3 & H4 & l & L & P) & _). exists 0. cbn [us_set us_virgin]. split; [repeat split; cbn; auto; exists []; split; [eapply ht_clear_spec; eauto|constructor]|]. split; [lia|]. split; [intros k; cbn; lia|split; reflexivity].
  - assert (HR' := HR). destruct HR' as (a & (H1 & H2 & H3 & H4 & l & L & P) & Ha & HD & HV). cbn [ts_elems ts_adds] in *. unfold hu_reserve.
    destruct (ht_reserve_spec khash t l m L) as [(t' & E & Hl & L' & C & C' & Hn' & Hd & Hw)|(E & F)]; rewrite E; cbn [bind].
    + unfold reserve_want in Hw. rewrite H1, H2, N.mul_1_r in Hw. unfold max_prime in Hw. change (N.of_nat 2) with 2%N in Hw. rewrite (proj2 HV (H4 C)), (proj2 (N.leb_le _ _) Hw). cbn [andb].
      exists t'. eexists. split; [reflexivity|]. split; [reflexivity|]. exists a. split; [|split; [lia|auto]]. unfold Rel. rewrite Hn', Hd, C'. cbn [ts_elems ts_adds length]. repeat split; auto; try lia. exists []. split; [exact L'|]. now subst l.
    + destruct F as [F|F].
      * destruct (us_virgin s) eqn:V; [|reflexivity]. exfalso. apply F. apply length_zero_iff_nil. rewrite (proj1 HV eq_refl) in H3. lia.
      * unfold reserve_want in F. rewrite H1, H2, N.mul_1_r in F. unfold max_prime in F. change (N.of_nat 2) with 2%N in F. rewrite (proj2 (N.leb_gt _ _)) by exact F. rewrite andb_false_r. reflexivity.
  - exists t. eexists. split; [reflexivity|]. split; [|exact HS]. destruct HR as (a & (H1 & H2 & H3 & H4 & l & L & P) & _). cbn [uagree]. f_equal. unfold hu_size. rewrite (proj1 (Live_size khash t l L)), <- (map_length snd). apply Permutation_length. exact P.
  - destruct (hu_walk_rel t s n HR) as (l & E & P). rewrite E. cbn [bind]. exists t. eexists. split; [reflexivity|]. split; [exact P|exact HS].
Qed.
Lemma hu_run_rel ops : forall t s n, RelU t s n -> room (n + length ops) ->
  Forall2 uagree (hu_run khash keq kdef t ops) (uspec_run keq s ops).
Proof.
  induction ops as [|o ops IH]; intros t s n HR Hn; cbn [hu_run uspec_run]; [constructor|]. cbn [length] in Hn.
  pose proof (hu_step_rel t s n o HR ltac:(lia)) as X. destruct (uspec keq s o) as [[s' out]| | |]; try contradiction.
  - destruct X as (t' & out' & E & Ag & R'). rewrite E. constructor; [exact Ag|]. apply (IH t' s' (S n)); [exact R'|]. now replace (S n + length ops) with (n + S (length ops)) by lia.
  - rewrite X. constructor; [exact I|constructor].
Qed.
End HUP.
