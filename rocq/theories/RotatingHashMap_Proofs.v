(** RotatingHashMap_Model refines RotatingHashMap_Spec. *)
From Coq Require Import List Arith NArith Lia Bool Permutation.
From Verif Require Import Common CommonFacts HashTable_Model HashTable_Proofs HashTable_Refine HashMap_Spec HashMap_Model HashMap_Proofs RotatingHashMap_Spec RotatingHashMap_Model.
Import ListNotations.

Section Gen.
Context {K V : Type}.
Variable keq : K -> K -> bool.
Hypothesis keq_refl : forall a, keq a a = true.
Hypothesis keq_sym : forall a b, keq a b = true -> keq b a = true.
Hypothesis keq_trans : forall a b c, keq a b = true -> keq b c = true -> keq a c = true.

Lemma mfind_inv (m : list (K * V)) k v : mfind keq k m = Some v ->
  exists b, In b m /\ keq k (fst b) = true /\ snd b = v.
Proof. unfold mfind. destruct (find _ m) as [b|] eqn:E; simpl; [|discriminate].
  inversion 1; subst. apply find_some in E. destruct E; eauto. Qed.

Lemma mfind_none_inv (m : list (K * V)) k : mfind keq k m = None -> forall b, In b m -> keq k (fst b) = false.
Proof. unfold mfind. destruct (find _ m) as [b|] eqn:E; simpl; [discriminate|]. intros _ b Hb.
  apply (find_none _ _ E b Hb). Qed.

Lemma mfind_perm (m m' : list (K * V)) k : uniq keq m -> Permutation m m' -> mfind keq k m = mfind keq k m'.
Proof. intros U P. destruct (mfind keq k m) as [v|] eqn:E.
  - destruct (mfind_inv _ _ _ E) as (b & Hb & Hk & <-). symmetry. apply mfind_some; auto.
    + eapply uniq_perm; eauto.
    + eapply Permutation_in; eauto.
  - symmetry. apply mfind_none. intros b Hb. eapply mfind_none_inv; eauto.
    eapply Permutation_in; [apply Permutation_sym|]; eauto. Qed.

Lemma mdelete_absent (m : list (K * V)) k : mfind keq k m = None -> mdelete keq k m = m.
Proof. intros H. apply filter_id. intros b Hb. now rewrite (mfind_none_inv _ _ H b Hb). Qed.

Lemma mupdate_absent (m : list (K * V)) k v : mfind keq k m = None -> mupdate keq k v m = m.
Proof. intros H. assert (X := mfind_none_inv _ _ H). unfold mupdate. clear H.
  induction m as [|b m IH]; simpl; auto. rewrite X by (simpl; auto). f_equal. apply IH. intros; apply X; simpl; auto. Qed.

Lemma uniq_mupdate (m : list (K * V)) k v : uniq keq m -> uniq keq (mupdate keq k v m).
Proof. intros U k'. specialize (U k').
  replace (length (filter (fun b => keq k' (fst b)) (mupdate keq k v m))) with (length (filter (fun b => keq k' (fst b)) m)); auto.
  clear U. unfold mupdate. induction m as [|y m IHm]; simpl; auto.
  destruct (keq k (fst y)); simpl; destruct (keq k' (fst y)); simpl; lia. Qed.

Lemma mdelete_mfind (m : list (K * V)) k : mfind keq k (mdelete keq k m) = None.
Proof. apply mfind_none. intros b Hb. apply filter_In in Hb. destruct Hb as [_ Hb]. now apply negb_true_iff in Hb. Qed.

Lemma uniq_mdelete_insert (m : list (K * V)) k v : uniq keq m -> uniq keq ((k, v) :: mdelete keq k m).
Proof. intros U. apply uniq_insert; auto. { now apply uniq_filter. }
  apply mfind_none_inv, mdelete_mfind. Qed.
End Gen.

Section RP.
Context {K V : Type}.
Variable khash : K -> N.
Variable keq : K -> K -> bool.
Variable kdef : K.
Variable vdef : V.
Hypothesis keq_refl : forall a, keq a a = true.
Hypothesis keq_sym : forall a b, keq a b = true -> keq b a = true.
Hypothesis keq_trans : forall a b c, keq a b = true -> keq b c = true -> keq a c = true.
Hypothesis khash_eq : forall a b, keq a b = true -> khash a = khash b.

Notation aged := (list (K * (V * nat))).
Definition tag (a : nat) (b : K * V) : K * (V * nat) := (fst b, (snd b, a)).
Definition E (m1 m2 : list (K * V)) : aged := map (tag 0) m1 ++ map (tag 1) m2.

Lemma find_map {A B} (f : A -> B) (p : B -> bool) l : find p (map f l) = option_map f (find (fun x => p (f x)) l).
Proof. induction l as [|x l IH]; simpl; auto. destruct (p (f x)); auto. Qed.
Lemma find_app {A} (p : A -> bool) l1 l2 : find p (l1 ++ l2) = match find p l1 with Some x => Some x | None => find p l2 end.
Proof. induction l1 as [|x l IH]; simpl; auto. destruct (p x); auto. Qed.
Lemma filter_map {A B} (f : A -> B) (p : B -> bool) l : filter p (map f l) = map f (filter (fun x => p (f x)) l).
Proof. induction l as [|x l IH]; simpl; auto. destruct (p (f x)); simpl; congruence. Qed.

Lemma mfind_E k m1 m2 : mfind keq k (E m1 m2) =
  match mfind keq k m1 with Some v => Some (v, 0) | None => option_map (fun v => (v, 1)) (mfind keq k m2) end.
Proof. unfold mfind, E. rewrite find_app, !find_map. simpl.
  destruct (find (fun x => keq k (fst x)) m1) as [b|]; simpl; auto.
  destruct (find (fun x => keq k (fst x)) m2) as [b|]; simpl; auto. Qed.
Lemma mdelete_E k m1 m2 : mdelete keq k (E m1 m2) = E (mdelete keq k m1) (mdelete keq k m2).
Proof. unfold mdelete, E. rewrite filter_app, !filter_map. reflexivity. Qed.
Lemma mupdate_E k v m1 m2 : mfind keq k m2 = None -> mupdate keq k (v, 0) (E m1 m2) = E (mupdate keq k v m1) m2.
Proof. intros H. unfold E, mupdate at 1. rewrite map_app. f_equal.
  - unfold mupdate. rewrite !map_map. apply map_ext. intros b; simpl. destruct (keq k (fst b)); reflexivity.
  - change (mupdate keq k (v, 0) (map (tag 1) m2) = map (tag 1) m2). apply mupdate_absent.
    assert (X := mfind_E k [] m2). unfold E in X; simpl in X. rewrite X, H. reflexivity. Qed.
Lemma survives_E m1 m2 : filter survives (E m1 m2) = map (tag 0) m1.
Proof. unfold E. rewrite filter_app, !filter_map. unfold survives; simpl.
  rewrite filter_id, filter_nil; auto. apply app_nil_r. Qed.
Lemma discarded_E m1 m2 : discarded (E m1 m2) = map (tag 1) m2.
Proof. unfold E, discarded. rewrite filter_app, !filter_map. unfold survives; simpl.
  rewrite filter_nil, filter_id; auto. Qed.
Lemma rotated_E m1 m2 : rotated (E m1 m2) = E [] m1.
Proof. unfold rotated. rewrite survives_E. unfold E; simpl. rewrite map_map. reflexivity. Qed.
Lemma strip_tag a m : strip (map (tag a) m) = m.
Proof. unfold strip. rewrite map_map. rewrite <- (map_id m) at 2. apply map_ext. intros []; reflexivity. Qed.
Lemma strip_E m1 m2 : strip (E m1 m2) = m1 ++ m2.
Proof. unfold E. unfold strip. rewrite map_app. f_equal; apply strip_tag. Qed.
Lemma length_E m1 m2 : length (E m1 m2) = length m1 + length m2.
Proof. unfold E. now rewrite app_length, !map_length. Qed.

Notation RelM := (RelM khash keq 2 1).
Notation room := (room 2 1).

Definition RelR (t : rhm K V) (e : aged) (n : nat) : Prop :=
  exists s1 s2, RelM (table_recent t) s1 n /\ RelM (table_old t) s2 n
    /\ Permutation e (E (ms_map s1) (ms_map s2)) /\ uniq keq e.

Lemma RelR_le t e n n' : RelR t e n -> n <= n' -> RelR t e n'.
Proof. intros (s1 & s2 & R1 & R2 & P & U) H. exists s1, s2. repeat split; auto; eapply RelM_le; eauto. Qed.

Lemma new_table_rel : exists t : hm K V, new_table = Ok t /\ RelM t (mk_ms [] true) 0.
Proof. eexists; split; [reflexivity|]. eapply hm_new_rel. reflexivity. Qed.

Lemma uniq_E_disj (m1 m2 : list (K * V)) k v : uniq keq (E m1 m2) -> mfind keq k m1 = Some v -> mfind keq k m2 = None.
Proof. intros U F. apply mfind_none. intros b Hb. destruct (keq k (fst b)) eqn:Ek; auto. exfalso.
  destruct (mfind_inv keq _ _ _ F) as (b1 & Hb1 & Hk1 & _).
  assert (X : tag 0 b1 = tag 1 b).
  { eapply (uniq_in keq) with (k := k); [exact U| | | |]; try (simpl; assumption);
    apply in_or_app; [left|right]; now apply in_map. }
  inversion X. Qed.

(** The two ways a key can be present in table [recent]: pointer facts. *)
Definition points (r : hm K V) (s : mstate K V) (k : K) (i : nat) (v : V) : Prop :=
  exists b l, Live (vhash khash) r l /\ Permutation (map snd l) (ms_map s) /\ In (i, b) l
    /\ keq k (fst b) = true /\ snd b = v /\ hm_read r i = Ok v.

Lemma lookup_refines t e n k : RelR t e n -> room n ->
  (exists t' i v s1 s2, rhm_lookup khash keq kdef vdef t k = Ok (t', Some i)
      /\ value_of keq k e = Some v
      /\ RelM (table_recent t') s1 (S n) /\ RelM (table_old t') s2 (S n)
      /\ Permutation (touch keq k e) (E (ms_map s1) (ms_map s2)) /\ uniq keq (touch keq k e)
      /\ points (table_recent t') s1 k i v /\ mfind keq k (ms_map s1) = Some v)
  \/ (rhm_lookup khash keq kdef vdef t k = Ok (t, None) /\ value_of keq k e = None /\ touch keq k e = e).
Proof.
  intros (s1 & s2 & R1 & R2 & P & U) Hroom.
  assert (UE : uniq keq (E (ms_map s1) (ms_map s2))) by (eapply uniq_perm; eauto).
  unfold rhm_lookup, value_of, touch. rewrite (mfind_perm keq _ _ k U P), mfind_E.
  destruct (hm_lookup_rel khash keq vdef 2 1 khash_eq _ _ _ k R1) as [(i & b & l & El & L & Pl & Hi & Hk & Hb & F & Rd)|(El & F & Ab)];
    rewrite El, F; cbn [bind].
  - left. exists t, i, (snd b), s1, s2. repeat split; auto; try (eapply RelM_le; eauto; fail).
    exists b, l. auto 8.
  - destruct (hm_lookup_rel khash keq vdef 2 1 khash_eq _ _ _ k R2) as [(j & b2 & l2 & El2 & L2 & Pl2 & Hj & Hk2 & Hb2 & F2 & Rd2)|(El2 & F2 & Ab2)];
      rewrite El2, F2; cbn [bind option_map]; [|right; auto].
    left. rewrite Rd2; cbn [bind].
    assert (Ei : hm_index khash keq vdef (table_recent t) k = ht_add (vhash khash) (table_recent t) (k, vdef)).
    { unfold hm_index. rewrite El. reflexivity. }
    rewrite Ei.
    destruct (hm_add_rel khash keq 2 1 keq_sym keq_trans _ _ _ k vdef R1 Hroom Ab) as (r1 & i & Ea & _ & Ra & la & La & Hia & Pa).
    rewrite Ea; cbn [bind].
    destruct (hm_write_rel khash keq 2 1 keq_refl keq_sym keq_trans _ _ _ la i (k, vdef) (snd b2) Ra La Pa Hia k (keq_refl k)) as (r2 & Ew & Rw & lw & Lw & Hiw & Pw).
    rewrite Ew; cbn [bind].
    destruct (hm_remove_rel khash keq kdef vdef 2 1 keq_refl keq_sym keq_trans khash_eq _ _ _ k true R2) as [(o2 & Er & _ & Ro)|(Er & F2')]; [|congruence].
    rewrite Er; cbn [bind].
    assert (Hup : mupdate keq k (snd b2) ((k, vdef) :: ms_map s1) = (k, snd b2) :: ms_map s1).
    { simpl. rewrite keq_refl. f_equal. now apply mupdate_absent. }
    cbn [ms_map ms_virgin] in *. rewrite Hup in *.
    do 5 eexists. split; [reflexivity|]. split; [reflexivity|]. cbn [table_recent table_old].
    split; [exact Rw|]. split; [eapply RelM_le; [exact Ro|lia]|]. cbn [ms_map].
    split; [|split; [|split]].
    + assert (Pd : Permutation (mdelete keq k e) (mdelete keq k (E (ms_map s1) (ms_map s2)))) by (apply filter_perm; auto).
      rewrite Pd, mdelete_E. rewrite (mdelete_absent keq (ms_map s1)) by auto. reflexivity.
    + apply uniq_mdelete_insert; auto.
    + exists (k, snd b2), lw. cbn [ms_map]. repeat split; auto.
      unfold hm_read. now rewrite (deref_live khash _ _ _ _ Lw Hiw).
    + unfold mfind; simpl. now rewrite keq_refl.
Qed.

Lemma index_refines t e n k : RelR t e n -> room n ->
  exists t' i v s1 s2, rhm_index khash keq kdef vdef t k = Ok (t', i)
    /\ v = match value_of keq k e with Some x => x | None => vdef end
    /\ RelM (table_recent t') s1 (S n) /\ RelM (table_old t') s2 (S n)
    /\ (let e' := match value_of keq k e with Some _ => touch keq k e | None => (k, (vdef, 0)) :: e end in
        Permutation e' (E (ms_map s1) (ms_map s2)) /\ uniq keq e')
    /\ points (table_recent t') s1 k i v /\ mfind keq k (ms_map s1) = Some v.
Proof.
  intros HR Hroom. unfold rhm_index.
  destruct (lookup_refines t e n k HR Hroom) as [(t' & i & v & s1 & s2 & El & Ev & R1 & R2 & P & U & Pt & F)|(El & Ev & Et)];
    rewrite El; cbn [bind]; rewrite Ev.
  - exists t', i, v, s1, s2. cbn zeta. auto 12.
  - destruct HR as (s1 & s2 & R1 & R2 & P & U).
    assert (F : mfind keq k (ms_map s1) = None /\ mfind keq k (ms_map s2) = None /\ mfind keq k e = None).
    { unfold value_of in Ev. destruct (mfind keq k e) as [x|] eqn:Fe; [discriminate|].
      rewrite (mfind_perm keq _ _ k U P), mfind_E in Fe.
      destruct (mfind keq k (ms_map s1)); [discriminate|]. destruct (mfind keq k (ms_map s2)); [discriminate|]. auto. }
    destruct F as (F1 & F2 & Fe).
    assert (Ab := mfind_none_inv keq _ _ F1).
    destruct (hm_add_rel khash keq 2 1 keq_sym keq_trans _ _ _ k vdef R1 Hroom Ab) as (r1 & i & Ea & Rd & Ra & la & La & Hia & Pa).
    assert (Ei : hm_index khash keq vdef (table_recent t) k = Ok (r1, i)).
    { unfold hm_index. destruct (hm_lookup_rel khash keq vdef 2 1 khash_eq _ _ _ k R1) as [(i' & b & l & El' & L & Pl & Hi & Hk & Hb & F & Rd')|(El' & F & Ab')]; [congruence|].
      rewrite El'. exact Ea. }
    rewrite Ei; cbn [bind].
    exists (mk_rhm r1 (table_old t)), i, vdef, (mk_ms ((k, vdef) :: ms_map s1) false), s2. cbn [table_recent table_old ms_map] in *.
    split; auto. split; auto. split; auto. split; [eapply RelM_le; eauto|]. split.
    + cbn zeta. split; [unfold E; simpl; now constructor|]. apply uniq_insert; auto. now apply mfind_none_inv.
    + split.
      * exists (k, vdef), la. cbn [ms_map]. auto 8.
      * unfold mfind; simpl. now rewrite keq_refl.
Qed.

Lemma iterate_rel (t : hm K V) s n : RelM t s n -> exists l, hm_iterate t = Ok l /\ Permutation l (ms_map s).
Proof. intros (_ & _ & _ & _ & _ & l & L & P). exists (map snd l). split; auto. now apply (ht_iterate_spec (vhash khash)). Qed.

Lemma size_rel (t : hm K V) s n : RelM t s n -> hm_size t = length (ms_map s).
Proof. intros (_ & _ & _ & _ & _ & l & L & P). unfold hm_size. destruct (Live_size _ _ _ L) as (-> & _).
  rewrite <- (Permutation_length P), map_length. reflexivity. Qed.

Lemma rotate_refines t e n : RelR t e n -> exists t', rhm_rotate t = Ok t' /\ RelR t' (rotated e) n
  /\ table_old t' = table_recent t.
Proof.
  intros (s1 & s2 & R1 & R2 & P & U). unfold rhm_rotate. destruct new_table_rel as (nt & En & Rn). rewrite En; cbn [bind].
  eexists; split; [reflexivity|]. split; [|reflexivity].
  exists (mk_ms [] true), s1. cbn [table_recent table_old ms_map]. split; [eapply RelM_le; [exact Rn|lia]|]. split; auto. split.
  - assert (Pr : Permutation (rotated e) (rotated (E (ms_map s1) (ms_map s2)))).
    { unfold rotated. apply Permutation_map, filter_perm; auto. }
    now rewrite rotated_E in Pr.
  - unfold rotated. intros k. rewrite filter_map, map_length. apply (uniq_filter keq survives e U k).
Qed.

Lemma rotate_fn_refines t e n : RelR t e n -> exists t' l, rhm_rotate_fn t = Ok (t', l)
  /\ RelR t' (rotated e) n /\ Permutation l (strip (discarded e)).
Proof.
  intros HR. assert (HR' := HR). destruct HR' as (s1 & s2 & R1 & R2 & P & U). unfold rhm_rotate_fn.
  destruct (iterate_rel _ _ _ R2) as (l & El & Pl). rewrite El; cbn [bind].
  destruct (rotate_refines t e n HR) as (t' & Et & R' & _). rewrite Et; cbn [bind].
  exists t', l. split; auto. split; auto. rewrite Pl.
  assert (Pd : Permutation (discarded e) (discarded (E (ms_map s1) (ms_map s2)))) by (apply filter_perm; auto).
  rewrite discarded_E in Pd. rewrite <- (strip_tag 1 (ms_map s2)). symmetry. now apply Permutation_map.
Qed.

Lemma value_of_E k e m1 m2 : Permutation e (E m1 m2) -> uniq keq e ->
  value_of keq k e = match mfind keq k m1 with Some v => Some v | None => mfind keq k m2 end.
Proof. intros P U. unfold value_of. rewrite (mfind_perm keq _ _ k U P), mfind_E.
  destruct (mfind keq k m1); simpl; auto. destruct (mfind keq k m2); auto. Qed.

Lemma step_refines_r t e n o : RelR t e n -> room n ->
  match rspec keq vdef e o with
  | Ok (e', out) => exists t' out', rhm_step khash keq kdef vdef t o = Ok (t', out') /\ out_agree out' out /\ RelR t' e' (S n)
  | Abort => rhm_step khash keq kdef vdef t o = Abort
  | _ => False
  end.
Proof.
  intros HR Hroom. assert (HRS : RelR t e (S n)) by (eapply RelR_le; eauto).
  assert (HR' := HR). destruct HR' as (z1 & z2 & Z1 & Z2 & ZP & ZU).
  destruct o as [k|k v|k|k|k|k must| | | | | | | | |]; cbn [rspec rhm_step].
  - (* index *)
    destruct (index_refines t e n k HR Hroom) as (t' & i & v & s1 & s2 & Ei & Ev & R1 & R2 & (P & U) & Pt & F).
    rewrite Ei; cbn [bind]. destruct Pt as (b & l & _ & _ & _ & _ & _ & Rd). rewrite Rd; cbn [bind].
    destruct (value_of keq k e) as [w|]; subst v; exists t'; eexists; (split; [reflexivity|]); (split; [reflexivity|]);
      exists s1, s2; auto.
  - (* assign *)
    destruct (index_refines t e n k HR Hroom) as (t' & i & w & s1 & s2 & Ei & Ev & R1 & R2 & (P & U) & Pt & F).
    rewrite Ei; cbn [bind]. destruct Pt as (b & l & L & Pl & Hi & Hk & _ & Rd).
    destruct (hm_write_rel khash keq 2 1 keq_refl keq_sym keq_trans _ _ _ l i b v R1 L Pl Hi k Hk) as (r2 & Ew & Rw & _).
    rewrite Ew; cbn [bind].
    assert (UE : uniq keq (E (ms_map s1) (ms_map s2))) by (eapply uniq_perm; eauto).
    assert (F2 : mfind keq k (ms_map s2) = None) by (eapply uniq_E_disj; eauto).
    destruct (value_of keq k e) as [w'|] eqn:Eve.
    + eexists; eexists; split; [reflexivity|]. split; [reflexivity|].
      exists (mk_ms (mupdate keq k v (ms_map s1)) (ms_virgin s1)), s2. cbn [table_recent table_old ms_map].
      split; auto. split; auto. split; [|now apply uniq_mupdate].
      rewrite <- mupdate_E by auto. unfold mupdate at 1. now apply Permutation_map.
    + eexists; eexists; split; [reflexivity|]. split; [reflexivity|].
      exists (mk_ms (mupdate keq k v (ms_map s1)) (ms_virgin s1)), s2. cbn [table_recent table_old ms_map].
      split; auto. split; auto.
      assert (Fe : mfind keq k e = None). { unfold value_of in Eve. destruct (mfind keq k e); [discriminate|auto]. }
      assert (Eu : mupdate keq k (v, 0) ((k, (vdef, 0)) :: e) = (k, (v, 0)) :: e).
      { simpl. rewrite keq_refl. f_equal. now apply mupdate_absent. }
      rewrite <- Eu. split; [|now apply uniq_mupdate].
      rewrite <- mupdate_E by auto. unfold mupdate at 1. now apply Permutation_map.
  - (* lookup *)
    destruct (lookup_refines t e n k HR Hroom) as [(t' & i & v & s1 & s2 & El & Ev & R1 & R2 & P & U & Pt & F)|(El & Ev & Et)];
      rewrite El; cbn [bind]; rewrite Ev.
    + destruct Pt as (b & l & _ & _ & _ & _ & _ & Rd). rewrite Rd; cbn [bind].
      exists t'; eexists; split; [reflexivity|]. split; [reflexivity|]. exists s1, s2; auto.
    + rewrite Et. exists t; eexists; split; [reflexivity|]. split; [reflexivity|exact HRS].
  - (* exists *) unfold rhm_exists.
    destruct (lookup_refines t e n k HR Hroom) as [(t' & i & v & s1 & s2 & El & Ev & R1 & R2 & P & U & Pt & F)|(El & Ev & Et)];
      rewrite El; cbn [bind]; rewrite Ev.
    + exists t'; eexists; split; [reflexivity|]. split; [reflexivity|]. exists s1, s2; auto.
    + rewrite Et. exists t; eexists; split; [reflexivity|]. split; [reflexivity|exact HRS].
  - (* existsNoPromote *) unfold rhm_existsNoPromote. rewrite (value_of_E k e _ _ ZP ZU).
    destruct (hm_lookup_rel khash keq vdef 2 1 khash_eq _ _ _ k Z1) as [(i & b & l & El & L & Pl & Hi & Hk & Hb & F & Rd)|(El & F & Ab)];
      rewrite El, F; cbn [bind].
    + exists t; eexists; split; [reflexivity|]. split; [reflexivity|exact HRS].
    + destruct (hm_lookup_rel khash keq vdef 2 1 khash_eq _ _ _ k Z2) as [(j & b2 & l2 & El2 & _ & _ & _ & _ & _ & F2 & _)|(El2 & F2 & Ab2)];
      rewrite El2, F2; cbn [bind]; (exists t; eexists; split; [reflexivity|]; split; [reflexivity|exact HRS]).
  - (* remove *) unfold rhm_remove. rewrite (value_of_E k e _ _ ZP ZU).
    assert (UE : uniq keq (E (ms_map z1) (ms_map z2))) by (eapply uniq_perm; eauto).
    assert (Pd : Permutation (mdelete keq k e) (E (mdelete keq k (ms_map z1)) (mdelete keq k (ms_map z2)))).
    { rewrite <- mdelete_E. apply filter_perm; auto. }
    assert (Ud : uniq keq (mdelete keq k e)) by (apply uniq_filter; auto).
    destruct (hm_remove_rel khash keq kdef vdef 2 1 keq_refl keq_sym keq_trans khash_eq _ _ _ k false Z1) as [(r1 & Er & (w & F1) & Ro)|(Er & F1)];
      rewrite Er, F1; cbn [bind];
    destruct (hm_remove_rel khash keq kdef vdef 2 1 keq_refl keq_sym keq_trans khash_eq _ _ _ k false Z2) as [(r2 & Er2 & (w2 & F2) & Ro2)|(Er2 & F2)];
      rewrite Er2; cbn [bind].
    + exfalso. rewrite (uniq_E_disj _ _ _ _ UE F1) in F2. discriminate.
    + rewrite orb_true_r; cbn [orb invariant bind].
      eexists; eexists; split; [reflexivity|]. split; [reflexivity|].
      exists (mk_ms (mdelete keq k (ms_map z1)) (ms_virgin z1)), z2. cbn [table_recent table_old ms_map].
      split; [eapply RelM_le; eauto|]. split; [eapply RelM_le; eauto|].
      rewrite (mdelete_absent keq (ms_map z2)) in Pd by auto. auto.
    + rewrite F2. rewrite orb_true_r; cbn [orb invariant bind].
      eexists; eexists; split; [reflexivity|]. split; [reflexivity|].
      exists z1, (mk_ms (mdelete keq k (ms_map z2)) (ms_virgin z2)). cbn [table_recent table_old ms_map].
      split; [eapply RelM_le; eauto|]. split; [eapply RelM_le; eauto|].
      rewrite (mdelete_absent keq (ms_map z1)) in Pd by auto. auto.
    + rewrite F2. destruct must; cbn [negb orb invariant bind]; auto.
      eexists; eexists; split; [reflexivity|]. split; [reflexivity|]. destruct t; exact HRS.
  - (* rotate *) destruct (rotate_refines t e n HR) as (t' & Et & R' & _). rewrite Et; cbn [bind].
    eexists; eexists; split; [reflexivity|]. split; [reflexivity|]. eapply RelR_le; eauto.
  - (* rotate fn *) destruct (rotate_fn_refines t e n HR) as (t' & l & Et & R' & Pl). rewrite Et; cbn [bind].
    eexists; eexists; split; [reflexivity|]. split; [exact Pl|]. eapply RelR_le; eauto.
  - (* flush *) unfold rhm_flush. destruct (rotate_refines t e n HR) as (t1 & Et1 & R1 & _). rewrite Et1; cbn [bind].
    destruct (rotate_refines t1 _ n R1) as (t2 & Et2 & R2 & _). rewrite Et2; cbn [bind].
    eexists; eexists; split; [reflexivity|]. split; [reflexivity|].
    unfold rotated in R2 at 1. rewrite (filter_nil survives (rotated e)) in R2.
    + simpl in R2. eapply RelR_le; eauto.
    + unfold rotated. intros b Hb. apply in_map_iff in Hb. destruct Hb as (x & <- & _). reflexivity.
  - (* flush fn *) unfold rhm_flush_fn. destruct (rotate_fn_refines t e n HR) as (t1 & l1 & Et1 & R1 & Pl1). rewrite Et1; cbn [bind].
    destruct (rotate_fn_refines t1 _ n R1) as (t2 & l2 & Et2 & R2 & Pl2). rewrite Et2; cbn [bind].
    eexists; eexists; split; [reflexivity|]. split.
    + simpl. rewrite Pl1, Pl2. unfold discarded at 2. rewrite (filter_id _ (rotated e)).
      * unfold rotated. unfold strip. rewrite map_map; simpl. rewrite <- map_app. apply Permutation_map.
        unfold discarded. rewrite Permutation_app_comm. symmetry. apply filter_split_perm.
      * unfold rotated. intros b Hb. apply in_map_iff in Hb. destruct Hb as (x & <- & _). reflexivity.
    + unfold rotated in R2 at 1. rewrite (filter_nil survives (rotated e)) in R2.
      * simpl in R2. eapply RelR_le; eauto.
      * unfold rotated. intros b Hb. apply in_map_iff in Hb. destruct Hb as (x & <- & _). reflexivity.
  - (* walk *) unfold rhm_walk. destruct (iterate_rel _ _ _ Z1) as (l1 & El1 & Pl1). destruct (iterate_rel _ _ _ Z2) as (l2 & El2 & Pl2).
    rewrite El1, El2; cbn [bind]. eexists; eexists; split; [reflexivity|]. split; [|exact HRS].
    simpl. rewrite Pl1, Pl2, <- strip_E. symmetry. now apply Permutation_map.
  - (* size *) rewrite (size_rel _ _ _ Z1), (size_rel _ _ _ Z2). eexists; eexists; split; [reflexivity|]. split; [|exact HRS].
    simpl. rewrite (Permutation_length ZP), length_E. reflexivity.
  - (* size recent *) rewrite (size_rel _ _ _ Z1). eexists; eexists; split; [reflexivity|]. split; [|exact HRS].
    simpl. rewrite (Permutation_length (filter_perm survives _ _ ZP)), survives_E, map_length. reflexivity.
  - (* size old *) rewrite (size_rel _ _ _ Z2). eexists; eexists; split; [reflexivity|]. split; [|exact HRS].
    simpl. unfold discarded. rewrite (Permutation_length (filter_perm _ _ _ ZP)).
    fold (discarded (E (ms_map z1) (ms_map z2))). rewrite discarded_E, map_length. reflexivity.
  - (* empty *) unfold hm_empty. fold (hm_size (table_recent t)) (hm_size (table_old t)).
    rewrite (size_rel _ _ _ Z1), (size_rel _ _ _ Z2). eexists; eexists; split; [reflexivity|]. split; [|exact HRS].
    simpl. f_equal. rewrite (Permutation_length ZP), length_E. destruct (length (ms_map z1)), (length (ms_map z2)); reflexivity.
Qed.

Lemma rhm_run_rel ops : forall t e n, RelR t e n -> room (n + length ops) ->
  Forall2 res_agree (rhm_run khash keq kdef vdef t ops) (rspec_run keq vdef e ops).
Proof.
  induction ops as [|o ops IH]; intros t e n HR Hroom; cbn [rhm_run rspec_run]; [constructor|].
  simpl in Hroom. assert (X := step_refines_r t e n o HR ltac:(eapply room_mono; [|exact Hroom]; lia)).
  destruct (rspec keq vdef e o) as [[e' out]| | |]; try tauto.
  - destruct X as (t' & out' & Es & Ag & R'). rewrite Es. constructor; [exact Ag|].
    apply (IH t' e' (S n)); auto. now replace (S n + length ops) with (n + S (length ops)) by lia.
  - rewrite X. constructor; [exact I|constructor].
Qed.

Lemma rhm_refines ops : room (length ops) ->
  exists t, rhm_new = Ok t /\
  Forall2 res_agree (rhm_run khash keq kdef vdef t ops) (rspec_run keq vdef [] ops).
Proof. intros H. unfold rhm_new. destruct new_table_rel as (nt & En & Rn). rewrite En; cbn [bind].
  eexists; split; [reflexivity|]. apply (rhm_run_rel ops _ _ 0); auto.
  exists (mk_ms [] true), (mk_ms [] true). cbn [table_recent table_old ms_map]. repeat split; auto; try apply Rn.
Qed.

Lemma keq_swap a b c : keq a b = true -> keq a c = keq b c.
Proof. intros H. destruct (keq b c) eqn:E1.
  - now apply keq_trans with b.
  - destruct (keq a c) eqn:E2; auto. rewrite <- E1. symmetry. apply keq_trans with a; auto. Qed.
Lemma keq_comm a b : keq a b = keq b a.
Proof. destruct (keq a b) eqn:E1; destruct (keq b a) eqn:E2; auto; apply keq_sym in E1 || apply keq_sym in E2; congruence. Qed.

Lemma mfind_delete (e : aged) k k' : uniq keq e -> mfind keq k (mdelete keq k' e) = if keq k k' then None else mfind keq k e.
Proof. intros U. destruct (keq k k') eqn:Ek.
  - apply mfind_none. intros b Hb. apply filter_In in Hb. destruct Hb as [_ Hb]. apply negb_true_iff in Hb.
    now rewrite (keq_swap k k').
  - destruct (mfind keq k e) as [v|] eqn:F.
    + destruct (mfind_inv keq _ _ _ F) as (b & Hb & Hk & <-). apply mfind_some; auto.
      * now apply uniq_filter.
      * apply filter_In. split; auto. apply negb_true_iff. rewrite keq_comm, <- Ek. symmetry. now apply keq_swap.
    + apply mfind_none. intros b Hb. apply filter_In in Hb. destruct Hb as [Hb _]. eapply mfind_none_inv; eauto. Qed.

Lemma mfind_cons (e : aged) k k' x : mfind keq k ((k', x) :: e) = if keq k k' then Some x else mfind keq k e.
Proof. unfold mfind; simpl. destruct (keq k k'); reflexivity. Qed.

Lemma mfind_update (e : aged) k k' x : mfind keq k (mupdate keq k' x e) =
  if keq k k' then option_map (fun _ => x) (mfind keq k e) else mfind keq k e.
Proof. induction e as [|[c y] e IH]; simpl. { unfold mfind; simpl. destruct (keq k k'); auto. }
  destruct (keq k' c) eqn:E1; simpl; rewrite !mfind_cons; destruct (keq k c) eqn:E2; auto.
  - assert (keq k k' = true) as ->. { apply keq_trans with c; auto. } reflexivity.
  - destruct (keq k k') eqn:E3; auto. rewrite (keq_swap k k') in E2 by auto. congruence. Qed.

Lemma mfind_touch (e : aged) k k' : uniq keq e -> mfind keq k (touch keq k' e) =
  if keq k k' then (match mfind keq k e with Some (v, _) => Some (v, 0) | None => None end) else mfind keq k e.
Proof. intros U.
  assert (Same : keq k k' = true -> mfind keq k e = mfind keq k' e).
  { intros H. unfold mfind. clear -H keq_sym keq_trans. induction e as [|b e IH]; simpl; auto. rewrite (keq_swap k k') by auto.
    destruct (keq k' (fst b)); auto. }
  unfold touch. destruct (keq k k') eqn:Ek.
  - rewrite (Same eq_refl). destruct (mfind keq k' e) as [[v [|a]]|] eqn:F.
    + now rewrite Same.
    + now rewrite mfind_cons, Ek.
    + now rewrite Same.
  - destruct (mfind keq k' e) as [[v [|a]]|]; auto. rewrite mfind_cons, Ek, mfind_delete by auto. now rewrite Ek. Qed.

Lemma mfind_rotated (e : aged) k : uniq keq e -> mfind keq k (rotated e) =
  match mfind keq k e with Some (v, 0) => Some (v, 1) | _ => None end.
Proof. intros U. destruct (mfind keq k e) as [[v a]|] eqn:F.
  - destruct (mfind_inv keq _ _ _ F) as (b & Hb & Hk & Eb). destruct a.
    + assert (Ub : uniq keq (rotated e)).
      { unfold rotated. intros c. rewrite filter_map, map_length. apply (uniq_filter keq survives e U c). }
      rewrite (mfind_some keq (rotated e) k (fst b, (v, 1))); auto.
      unfold rotated. apply in_map_iff. exists b. split. { now rewrite Eb. } apply filter_In. split; auto. unfold survives. now rewrite Eb.
    + apply mfind_none. intros c Hc. destruct (keq k (fst c)) eqn:Ec; auto. exfalso.
      unfold rotated in Hc. apply in_map_iff in Hc. destruct Hc as (x & <- & Hx). apply filter_In in Hx. destruct Hx as [Hx Hs]. simpl in Ec.
      assert (x = b) by (eapply (uniq_in keq); eauto). subst x. unfold survives in Hs. rewrite Eb in Hs. discriminate.
  - apply mfind_none. intros c Hc. unfold rotated in Hc. apply in_map_iff in Hc. destruct Hc as (x & <- & Hx). apply filter_In in Hx.
    simpl. eapply mfind_none_inv; eauto. tauto. Qed.

Lemma uniq_touch (e : aged) k : uniq keq e -> uniq keq (touch keq k e).
Proof. intros U. unfold touch. destruct (mfind keq k e) as [[v [|a]]|]; auto. apply uniq_mdelete_insert; auto. Qed.

Lemma value_none (e : aged) k : value_of keq k e = None -> mfind keq k e = None.
Proof. unfold value_of. destruct (mfind keq k e); [discriminate|auto]. Qed.

Lemma uniq_rspec (e : aged) o e' out : uniq keq e -> rspec keq vdef e o = Ok (e', out) -> uniq keq e'.
Proof. intros U. assert (Ur : uniq keq (rotated e)).
  { unfold rotated. intros c. rewrite filter_map, map_length. apply (uniq_filter keq survives e U c). }
  destruct o as [k|k v|k|k|k|k must| | | | | | | | |]; simpl; intros Hs; try (inversion Hs; subst; auto; try (intros c; simpl; lia); try (apply uniq_touch; assumption); fail).
  - destruct (value_of keq k e) eqn:Ev; inversion Hs; subst. + now apply uniq_touch. + apply uniq_insert; auto. now apply mfind_none_inv, value_none.
  - destruct (value_of keq k e) eqn:Ev; inversion Hs; subst. + now apply uniq_mupdate, uniq_touch. + apply uniq_insert; auto. now apply mfind_none_inv, value_none.
  - destruct (value_of keq k e) eqn:Ev; [|destruct must]; inversion Hs; subst; auto. now apply uniq_filter. Qed.

Lemma mfind_same (e : aged) k k' : keq k k' = true -> mfind keq k e = mfind keq k' e.
Proof. intros H. unfold mfind. induction e as [|b e IH]; simpl; auto. rewrite (keq_swap k k') by auto.
    destruct (keq k' (fst b)); auto. Qed.

Lemma key_step_spec (e : aged) o e' out k : uniq keq e -> rspec keq vdef e o = Ok (e', out) ->
  mfind keq k e' = key_step keq vdef k (mfind keq k e) o.
Proof. intros U. destruct o as [k'|k' v|k'|k'|k'|k' must| | | | | | | | |]; simpl.
  - unfold value_of. destruct (mfind keq k' e) as [[w a]|] eqn:F; simpl; inversion 1; subst.
    + rewrite mfind_touch by auto. destruct (keq k k') eqn:Ek; auto. now rewrite (mfind_same e k k'), F.
    + rewrite mfind_cons. destruct (keq k k') eqn:Ek; auto. now rewrite (mfind_same e k k'), F.
  - unfold value_of. destruct (mfind keq k' e) as [[w a]|] eqn:F; simpl; inversion 1; subst.
    + rewrite mfind_update, mfind_touch by auto. destruct (keq k k') eqn:Ek; auto. now rewrite (mfind_same e k k'), F.
    + rewrite mfind_cons. destruct (keq k k') eqn:Ek; auto.
  - inversion 1; subst. now apply mfind_touch.
  - inversion 1; subst. now apply mfind_touch.
  - inversion 1; subst; auto.
  - destruct (value_of keq k' e) eqn:Ev; [|destruct must]; inversion 1; subst.
    + rewrite mfind_delete by auto. reflexivity.
    + apply value_none in Ev. destruct (keq k k') eqn:Ek; auto. now rewrite (mfind_same e' k k').
  - inversion 1; subst. now apply mfind_rotated.
  - inversion 1; subst. now apply mfind_rotated.
  - inversion 1; subst; auto.
  - inversion 1; subst; auto.
  - inversion 1; subst; auto.
  - inversion 1; subst; auto.
  - inversion 1; subst; auto.
  - inversion 1; subst; auto.
  - inversion 1; subst; auto. Qed.

Lemma rhm_history ops k t : room (S (length ops)) -> rhm_new = Ok t ->
  let outs := rhm_run khash keq kdef vdef t (ops ++ [RLookup k]) in
  length outs = S (length ops) ->
  nth_error outs (length ops) = Some (Ok (ROpt (option_map fst (key_history keq vdef k ops)))).
Proof. intros Hr Hn outs Hl.
  destruct (rhm_refines (ops ++ [RLookup k])) as (t' & Ht' & F).
  { rewrite app_length. cbn [length]. rewrite Nat.add_1_r. exact Hr. }
  assert (Et : Ok t = Ok t') by (transitivity (@rhm_new K V); [symmetry; exact Hn|exact Ht']). injection Et as <-. clear Ht' Hn Hr. fold outs in F.
  assert (Hl2 := Forall2_length' _ _ _ F). rewrite Hl in Hl2.
  assert (U0 : uniq keq ([] : aged)) by (intros c; simpl; lia).
  assert (Hs : nth_error (rspec_run keq vdef [] (ops ++ [RLookup k])) (length ops) =
     Some (Ok (ROpt (option_map fst (key_history keq vdef k ops))))).
  { clear -Hl2 U0 keq_refl keq_sym keq_trans. unfold key_history. change (@None (V * nat)) with (mfind keq k ([] : aged)).
    revert U0 Hl2. generalize ([] : aged). induction ops as [|o ops IH]; intros e U Hl; [reflexivity|].
    cbn [app rspec_run length fold_left nth_error] in *. destruct (rspec keq vdef e o) as [[e' out]| | |] eqn:Es; simpl in *; try lia.
    rewrite <- (key_step_spec e o e' out k U Es). apply IH; [eapply uniq_rspec; eauto|lia]. }
  destruct (Forall2_nth_r _ _ _ _ _ F Hs) as (x & Hx & Ag). rewrite Hx. f_equal.
  destruct x as [o| | |]; simpl in Ag; try tauto. destruct o; simpl in Ag; try tauto; try discriminate; try (now subst); try congruence; try contradiction.
Qed.
End RP.
