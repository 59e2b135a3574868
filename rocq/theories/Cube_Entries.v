(** Proofs about a HashMap to statistics with entries made on demand. [den] is what a
    key stands for; [valid] keys are those of the right arity. *)
From Coq Require Import List Arith NArith Lia Bool Permutation ZifyBool ZifyNat ZifyN.
From Verif Require Import Common CommonFacts HashTable_Model HashTable_Spec HashTable_Proofs HashTable_Refine HashMap_Spec HashMap_Model HashMap_Proofs Cube_Spec Cube_Model.
Import ListNotations.

Section E.
Context {K P T : Type}.
Variable khash : K -> N.
Variable keq : K -> K -> bool.
Variable kdef : K.
Variable fresh : T.
Variable den : K -> P.
Variable valid : K -> Prop.
Hypothesis keq_refl : forall a, keq a a = true.
Hypothesis keq_sym : forall a b, keq a b = true -> keq b a = true.
Hypothesis keq_trans : forall a b c, keq a b = true -> keq b c = true -> keq a c = true.
Hypothesis khash_eq : forall a b, keq a b = true -> khash a = khash b.
Hypothesis keq_den : forall a b, valid a -> valid b -> (keq a b = true <-> den a = den b).

Hypothesis pdec : forall p q : P, {p = q} + {p <> q}.

Notation map := (hm K (option T)).
Notation rel := (@RelM K (option T) khash keq 2 1).
Notation room n := (N.of_nat n < 283301878)%N.

Definition holds (m : list (K * option T)) (f : P -> option T) : Prop :=
  (forall b, In b m -> valid (fst b) /\ snd b <> None) /\
  (forall p v, f p = Some v <-> exists k, In (k, Some v) m /\ den k = p).
Definition ER (t : map) (f : P -> option T) (n : nat) : Prop :=
  exists s, rel t s n /\ holds (ms_map s) f.

Lemma ER_ext t f g n : (forall p, f p = g p) -> ER t f n -> ER t g n.
Proof. intros E (s & R & V & H). exists s. split; [exact R|]. split; [exact V|]. intros p v. rewrite <- E. apply H. Qed.
Lemma ER_le t f n m : n <= m -> ER t f n -> ER t f m.
Proof. intros L (s & R & H). exists s. split; [eapply RelM_le; eauto|exact H]. Qed.
Lemma ER_new t : hm_new 2 1 = Ok t -> ER t (fun _ => None) 0.
Proof.
  intros E. exists (mk_ms [] true). split; [apply (hm_new_rel khash keq 2 1 t E)|]. split; [intros b []|]. intros p v. split; [discriminate|]. intros (k & [] & _).
Qed.
Lemma ER_clear t f n : ER t f n -> ER (hm_clear t) (fun _ => None) n.
Proof.
  intros (s & (A & B & C & Dv & U & l & L & Pm) & _). exists (mk_ms [] true). split.
  - split; [exact A|]. split; [exact B|]. split; [cbn; lia|]. split; [split; reflexivity|]. split; [intros k; cbn; lia|]. exists []. split; [eapply ht_clear_spec; eauto|constructor].
  - split; [intros b []|]. intros p v. split; [discriminate|]. intros (k & [] & _).
Qed.
Lemma room_room n : room n -> HashMap_Proofs.room 2 1 n.
Proof. unfold HashMap_Proofs.room, largest. lia. Qed.

Lemma in_mupdate k (w : option T) m k' w' : In (k', w') (mupdate keq k w m) <-> exists w0, In (k', w0) m /\ w' = if keq k k' then w else w0.
Proof.
  unfold mupdate. rewrite in_map_iff. split.
  - intros ((k0 & w0) & E & I). cbn [fst] in E. exists w0. destruct (keq k k0) eqn:Q; injection E as <- <-; rewrite Q; auto.
  - intros (w0 & I & ->). exists (k', w0). cbn [fst]. destruct (keq k k'); auto.
Qed.

Lemma holds_none m f k : holds m f -> valid k -> (forall b, In b m -> keq k (fst b) = false) -> f (den k) = None.
Proof.
  intros (V & HF) Vk Ab. destruct (f (den k)) as [v|] eqn:E; [|reflexivity]. exfalso. apply HF in E. destruct E as (k1 & I & D1). destruct (V _ I) as (V1 & _). cbn [fst] in V1.
  specialize (Ab _ I). cbn [fst] in Ab. assert (keq k k1 = true) by (apply keq_den; auto). congruence.
Qed.
Definition chg (f : P -> option T) (p : P) (v : T) : P -> option T := fun q => if pdec p q then Some v else f q.
Lemma chg_same f p v : chg f p v p = Some v.
Proof. unfold chg. destruct (pdec p p); congruence. Qed.
Lemma chg_other f p v q : q <> p -> chg f p v q = f q.
Proof. unfold chg. destruct (pdec p q); congruence. Qed.

Lemma holds_update m f k v v0 : holds m f -> valid k -> f (den k) = Some v0 -> holds (mupdate keq k (Some v) m) (chg f (den k) v).
Proof.
  intros (V & HF) Vk Fv. split.
  - intros (k1 & w1) I. apply in_mupdate in I. destruct I as (w0 & I & ->). cbn [fst snd]. destruct (V _ I) as (V1 & V2). split; [exact V1|]. destruct (keq k k1); [discriminate|exact V2].
  - intros p w. unfold chg. destruct (pdec (den k) p) as [<-|D].
    + split.
      * intros E. injection E as <-. apply HF in Fv. destruct Fv as (k1 & I1 & D1). exists k1. split; [|exact D1]. apply in_mupdate. exists (Some v0). split; [exact I1|].
        destruct (V _ I1) as (V1 & _). cbn [fst] in V1. assert (Q : keq k k1 = true) by (apply keq_den; auto). now rewrite Q.
      * intros (k1 & I1 & D1). apply in_mupdate in I1. destruct I1 as (w0 & I1 & E). destruct (V _ I1) as (V1 & _). cbn [fst] in V1. assert (Q : keq k k1 = true) by (apply keq_den; auto). rewrite Q in E. congruence.
    + rewrite HF. split; intros (k1 & I1 & D1); exists k1; (split; [|exact D1]).
      * apply in_mupdate. exists (Some w). split; [exact I1|]. destruct (V _ I1) as (V1 & _). cbn [fst] in V1. destruct (keq k k1) eqn:Q; [|reflexivity]. exfalso. apply D. rewrite <- D1. now apply keq_den.
      * apply in_mupdate in I1. destruct I1 as (w0 & I1 & E). destruct (V _ I1) as (V1 & _). cbn [fst] in V1. destruct (keq k k1) eqn:Q; [|now subst]. exfalso. apply D. rewrite <- D1. now apply keq_den.
Qed.
(** Changing the value of the entry at slot [i]. *)
Lemma modify_found t s n l i b g f : rel t s n -> holds (ms_map s) f -> Live (@vhash K (option T) khash) t l -> Permutation (List.map snd l) (ms_map s) -> In (i, b) l ->
  forall k v, valid k -> keq k (fst b) = true -> f (den k) = Some v ->
  exists t', modify t i g = Ok (t', g v) /\ ER t' (chg f (den k) (g v)) n.
Proof.
  intros HR HH L Pm Hi k v Vk Ek Fv. assert (Hb : In b (ms_map s)) by (eapply in_snd; eauto). destruct HH as (V & HF). destruct (V b Hb) as (Vb & Nb). destruct b as [k0 [v'|]]; cbn [fst snd] in *; [|congruence].
  assert (Dk : den k0 = den k) by (symmetry; apply keq_den; auto). assert (X : f (den k) = Some v') by (apply HF; exists k0; auto). assert (v' = v) by congruence. subst v'.
  unfold modify, hm_read. rewrite (deref_live khash _ _ _ _ L Hi). cbn [bind snd].
  destruct (hm_write_rel khash keq 2 1 keq_refl keq_sym keq_trans t s n l i (k0, Some v) (Some (g v)) HR L Pm Hi k Ek) as (t' & Ew & R' & _). rewrite Ew. cbn [bind].
  exists t'. split; [reflexivity|]. exists (mk_ms (mupdate keq k (Some (g v)) (ms_map s)) (ms_virgin s)). split; [exact R'|]. cbn [ms_map]. eapply holds_update; eauto. split; auto.
Qed.
Lemma touch_rel t f n k g : ER t f n -> room n -> valid k ->
  exists t', touch khash keq fresh t k g = Ok (t', g (val fresh (f (den k)))) /\ ER t' (chg f (den k) (g (val fresh (f (den k))))) (S n).
Proof.
  intros (s & R & HH) Hr Vk. unfold touch, getEntry, hm_index.
  destruct (hm_lookup_rel khash keq None 2 1 khash_eq t s n k R) as [(i & b & l & E & L & Pm & Hi & Ek & Hb & _ & Er)|(E & _ & Ab)]; rewrite E; cbn [bind].
  - rewrite Er. cbn [bind]. destruct HH as (V & HF). destruct (V b Hb) as (Vb & Nb). destruct b as [k0 [v|]]; cbn [fst snd] in *; [|congruence]. cbn [bind].
    assert (Fv : f (den k) = Some v) by (apply HF; exists k0; split; [exact Hb|symmetry; apply keq_den; auto]). rewrite Fv. cbn [val].
    destruct (modify_found t s n l i (k0, Some v) g f R (conj V HF) L Pm Hi k v Vk Ek Fv) as (t' & Em & R'). rewrite Em. exists t'. split; [reflexivity|]. eapply ER_le; [|exact R']. lia.
  - rewrite (holds_none _ _ _ HH Vk Ab). cbn [val].
    destruct (hm_add_rel khash keq 2 1 keq_sym keq_trans t s n k None R (room_room n Hr) Ab) as (t1 & i & Ea & Er & R1 & l1 & L1 & Hi1 & P1). unfold fullval. rewrite Ea. cbn [bind]. rewrite Er. cbn [bind].
    destruct (hm_write_rel khash keq 2 1 keq_refl keq_sym keq_trans t1 _ (S n) l1 i (k, None) (Some fresh) R1 L1 P1 Hi1 k (keq_refl k)) as (t2 & E2 & R2 & l2 & L2 & Hi2 & P2). rewrite E2. cbn [bind fst] in *.
    assert (MU : mupdate keq k (Some fresh) ((k, None) :: ms_map s) = (k, Some fresh) :: ms_map s).
    { unfold mupdate. cbn [List.map fst]. rewrite keq_refl. f_equal. rewrite <- (List.map_id (ms_map s)) at 2. apply map_ext_in. intros b Hb. now rewrite (Ab b Hb). }
    cbn [ms_map ms_virgin] in *. rewrite MU in *. destruct HH as (V & HF). assert (Fn : f (den k) = None) by (eapply holds_none; eauto; split; eauto).
    assert (H2 : holds ((k, Some fresh) :: ms_map s) (chg f (den k) fresh)).
    { split.
      - intros b [<-|Hb]; [cbn [fst snd]; split; [exact Vk|discriminate]|auto].
      - intros p w. unfold chg. destruct (pdec (den k) p) as [<-|D].
        + split; [intros X; injection X as <-; exists k; split; [now left|reflexivity]|]. intros (k1 & [X|I] & D1); [congruence|]. exfalso. assert (f (den k) = Some w) by (apply HF; eauto). congruence.
        + rewrite HF. split; intros (k1 & I & D1); exists k1; (split; [|exact D1]); [now right|]. destruct I as [X|I]; [|exact I]. exfalso. apply D. congruence. }
    destruct (modify_found t2 _ (S n) l2 i (k, Some fresh) g _ R2 H2 L2 P2 Hi2 k fresh Vk (keq_refl k) (chg_same _ _ _)) as (t' & Em & R'). rewrite Em. exists t'. split; [reflexivity|].
    eapply ER_ext; [|exact R']. intros p. unfold chg. destruct (pdec (den k) p); reflexivity.
Qed.

Lemma derefs_ok (l : list (K * option T)) : (forall b, In b l -> snd b <> None) -> exists r, derefs l = Ok r /\ l = List.map (fun e => (fst e, Some (snd e))) r.
Proof.
  induction l as [|(k & [v|]) l IH]; intros H.
  - exists []. now split.
  - destruct IH as (r & E & ->); [intros b Hb; apply H; now right|]. cbn [derefs]. rewrite E. cbn [bind]. exists ((k, v) :: r). now split.
  - exfalso. apply (H (k, None)); [now left|reflexivity].
Qed.
Lemma uniq_nodup_den (m : list (K * option T)) : uniq keq m -> (forall b, In b m -> valid (fst b)) -> NoDup (List.map (fun b => den (fst b)) m).
Proof.
  induction m as [|b m IH]; intros U V; [constructor|]. destruct (uniq_tail keq keq_refl b m U) as (U' & Hx). cbn [List.map]. constructor.
  - intros I. apply in_map_iff in I. destruct I as (x & E & I). specialize (Hx x I). assert (keq (fst b) (fst x) = true) by (apply keq_den; [apply V; now left|apply V; now right|congruence]). congruence.
  - apply IH; auto. intros c Hc. apply V. now right.
Qed.
Lemma walk_rel t f n : ER t f n -> exists l, walk t = Ok l /\ lists f (List.map (fun e => (den (fst e), snd e)) l) /\ (forall e, In e l -> valid (fst e)) /\ length l = hm_size t /\ length l <= n.
Proof.
  intros (s & (A & B & C & Dv & U & l & L & Pm) & V & HF). unfold walk, hm_iterate. rewrite (ht_iterate_spec _ _ _ L). cbn [bind].
  destruct (derefs_ok (List.map snd l)) as (r & E & X). { intros b Hb. apply V. eapply Permutation_in; eauto. }
  rewrite E. exists r. split; [reflexivity|]. destruct (Live_size _ _ _ L) as (Sz & Fl).
  assert (IR : forall k v, In (k, v) r <-> In (k, Some v) (ms_map s)).
  { intros k v. split; intros I.
    - eapply Permutation_in; [exact Pm|]. rewrite X. apply in_map_iff. exists (k, v). now split.
    - assert (I2 : In (k, Some v) (List.map snd l)) by (eapply Permutation_in; [apply Permutation_sym; exact Pm|exact I]). rewrite X in I2. apply in_map_iff in I2. destruct I2 as ((k1 & v1) & Q & I2). cbn [fst snd] in Q. congruence. }
  split; [split|split; [|split]].
  - assert (ND := uniq_nodup_den _ (uniq_perm keq _ _ (Permutation_sym Pm) U) (fun b Hb => proj1 (V b (Permutation_in _ Pm Hb)))). rewrite X in ND. rewrite map_map in ND |- *. exact ND.
  - intros p v. rewrite HF. rewrite in_map_iff. split.
    + intros ((k1 & v1) & Q & I). cbn [fst snd] in Q. injection Q as <- <-. exists k1. split; [now apply IR|reflexivity].
    + intros (k1 & I & <-). exists (k1, v). split; [reflexivity|now apply IR].
  - intros (k & v) I. apply (V (k, Some v)). now apply IR.
  - unfold hm_size. rewrite Sz. rewrite <- (map_length snd l), X. now rewrite map_length.
  - assert (length l <= length (chains t)) by (rewrite <- Sz; unfold ht_size; lia). rewrite <- (map_length (fun e : K * T => (fst e, Some (snd e))) r), <- X, map_length. lia.
Qed.
Lemma findEntry_rel t f n k : ER t f n -> valid k -> findEntry khash keq t k = Ok (f (den k)).
Proof.
  intros (s & (A & B & C & Dv & U & l & L & Pm) & HH) Vk. unfold findEntry, hm_find.
  destruct (ht_find_erase_spec (@vhash K (option T) khash) (@vequal K (option T) keq) (kdef, None) t l (fullval None k) (EHm khash keq khash_eq) L) as [(it & t' & l' & i & d & E & Ee & Ed & Et & L' & P' & Eq & Kp)|(it & E & Ee & Hn)];
    rewrite E; cbn [bind]; rewrite Ee.
  - rewrite Ed. cbn [bind]. assert (Hd : In d (ms_map s)). { eapply in_snd; eauto. eapply Permutation_in; [apply Permutation_sym; exact P'|now left]. }
    destruct HH as (V & HF). destruct (V d Hd) as (Vd & Nd). destruct d as [k0 [v|]]; cbn [fst snd] in *; [|congruence]. f_equal. symmetry. apply HF. exists k0. split; [exact Hd|]. symmetry. apply keq_den; auto.
  - f_equal. symmetry. eapply holds_none; eauto. intros b Hb. apply (absent_perm (@vequal K (option T) keq) (fullval None k) l (ms_map s) Pm); auto.
Qed.
Lemma prune_rel t f n q : ER t f n -> (forall a b, valid a -> valid b -> den a = den b -> q a = q b) -> forall q', (forall a, valid a -> q' (den a) = q a) ->
  exists t', hm_prune khash keq kdef None q t = Ok t' /\ ER t' (fun p => if q' p then None else f p) n.
Proof.
  intros (s & R & V & HF) Hq q' Hq'. destruct (hm_prune_rel khash keq kdef None 2 1 keq_refl keq_sym keq_trans khash_eq q t s n R) as (t' & E & R'). exists t'. split; [exact E|]. eexists. split; [exact R'|]. cbn [ms_map]. split.
  - intros b Hb. apply filter_In in Hb. now apply V.
  - intros p v. split.
    + destruct (q' p) eqn:Q; [discriminate|]. intros X. apply HF in X. destruct X as (k & I & <-). exists k. split; [|reflexivity]. apply filter_In. split; [exact I|]. cbn [fst]. destruct (V _ I) as (V1 & _). rewrite <- Hq' by exact V1. now rewrite Q.
    + intros (k & I & <-). apply filter_In in I. destruct I as (I & N). cbn [fst] in N. destruct (V _ I) as (V1 & _). cbn [fst] in V1. rewrite Hq' by exact V1. destruct (q k); [discriminate|]. apply HF. eauto.
Qed.
End E.
