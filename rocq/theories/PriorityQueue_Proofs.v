(** Heap invariant of PriorityQueue_Model. *)
From Coq Require Import List Arith NArith ZArith Lia Bool Permutation Sorted.
From Coq Require Import ZifyBool ZifyNat ZifyN.
From Verif Require Import Common CommonFacts PriorityQueue_Spec PriorityQueue_Model.
Import ListNotations.
Ltac Zify.zify_post_hook ::= Z.div_mod_to_equations.

Section PP.
Context {T : Type}.
Variable le : T -> T -> bool.
Variable li : T -> T -> bool.
Variable dflt : T.
Hypothesis le_total : forall a b, le a b = true \/ le b a = true.
Hypothesis le_trans : forall a b c, le a b = true -> le b c = true -> le a c = true.
Hypothesis li_le : forall a b, li a b = true -> le a b = true.
Hypothesis li_ge : forall a b, li a b = false -> le b a = true.

Notation g a i := (nth i a dflt).
Definition par (i : nat) : nat := (i - 1) / 2.

Lemma le_refl a : le a a = true.
Proof. destruct (le_total a a); auto. Qed.

Definition heap (a : list T) (n : nat) : Prop := forall i, 0 < i < n -> le (g a i) (g a (par i)) = true.

Lemma get_g (a : list T) i : i < length a -> get a i = Ok (g a i).
Proof. intros H. unfold get. now rewrite (nth_error_nth' a dflt H). Qed.
Lemma g_upd_eq (a : list T) i v : i < length a -> g (upd a i v) i = v.
Proof. intros H. apply nth_error_nth. now apply nth_error_upd_eq. Qed.
Lemma g_upd_neq (a : list T) i j v : i <> j -> g (upd a i v) j = g a j.
Proof. intros H. destruct (Nat.lt_ge_cases j (length a)).
  - apply nth_error_nth. rewrite nth_error_upd_neq by auto. now apply nth_error_nth'.
  - rewrite !nth_overflow; auto. now rewrite length_upd. Qed.
Lemma g_upd (a : list T) i j v : i < length a -> g (upd a i v) j = if i =? j then v else g a j.
Proof. intros H. destruct (Nat.eqb_spec i j) as [<-|]; [now apply g_upd_eq|now apply g_upd_neq]. Qed.

Lemma heap_root a n : heap a n -> forall i, i < n -> le (g a i) (g a 0) = true.
Proof. intros H i. induction i as [i IH] using lt_wf_ind. intros Hi. destruct i as [|i]; [apply le_refl|].
  apply le_trans with (g a (par (S i))); [apply H; lia|]. apply IH; unfold par; lia. Qed.

(** Contents: the first n cells. *)
Lemma firstn_in (a : list T) n x : n <= length a -> In x (firstn n a) -> exists i, i < n /\ g a i = x.
Proof. intros Hn H. apply In_nth with (d := dflt) in H. destruct H as (i & Hi & E). rewrite firstn_length in Hi.
  exists i. split; [lia|]. rewrite <- E. clear -Hi. revert n i Hi. induction a as [|y a IH]; intros [|n] [|i] Hi; simpl in *; auto; try lia.
  apply IH. lia. Qed.

Lemma firstn_upd (a : list T) n i v : firstn n (upd a i v) = upd (firstn n a) i v.
Proof. revert n i; induction a as [|y a IH]; intros [|n] [|i]; simpl; auto. f_equal. apply IH. Qed.

Lemma upd_perm (l : list T) i v : i < length l -> Permutation (g l i :: upd l i v) (v :: l).
Proof. revert i; induction l as [|y l IH]; intros [|i] H; simpl in *; try lia.
  - apply perm_swap.
  - rewrite perm_swap. rewrite IH by lia. apply perm_swap. Qed.

Lemma swap_perm (l : list T) i j v : i < length l -> j < length l -> i <> j ->
  Permutation (upd (upd l i (g l j)) j v) (upd l i v).
Proof. intros Hi Hj Hn.
  apply Permutation_cons_inv with (g l j).
  assert (E : g l j = g (upd l i (g l j)) j) by (now rewrite g_upd_neq).
  rewrite E at 1. rewrite upd_perm by (rewrite length_upd; lia).
  apply Permutation_cons_inv with (g l i).
  rewrite perm_swap. rewrite upd_perm by lia. rewrite (perm_swap (g l j) (g l i)). rewrite upd_perm by lia. apply perm_swap. Qed.

Lemma g_firstn (a : list T) n i : i < n -> g (firstn n a) i = g a i.
Proof. revert n i; induction a as [|y a IH]; intros [|n] [|i] H; simpl; auto; try lia. apply IH; lia. Qed.

(** ** Sifting down: a hole at [cur] that will receive [v]. *)
Definition DInv (a : list T) (n cur : nat) (v : T) : Prop :=
  cur < n /\ n <= length a
  /\ (forall i, 0 < i < n -> par i <> cur -> le (g (upd a cur v) i) (g (upd a cur v) (par i)) = true)
  /\ (0 < cur -> forall c, 0 < c < n -> par c = cur -> le (g a c) (g a (par cur)) = true).

Lemma down_step a n cur v d : DInv a n cur v -> 0 < d < n -> par d = cur -> le v (g a d) = true ->
  (forall s, 0 < s < n -> par s = cur -> le (g a s) (g a d) = true) ->
  DInv (upd a cur (g a d)) n d v /\ Permutation (firstn n (upd (upd a cur (g a d)) d v)) (firstn n (upd a cur v)).
Proof.
  intros (Hc & Hn & H1 & H2) Hd Pd Lv Ls. assert (Ncd : cur <> d) by (unfold par in Pd; lia). split.
  - split; [lia|]. rewrite length_upd. split; [lia|]. split.
    + intros i Hi Hp. rewrite !(g_upd (upd _ _ _)) by (rewrite length_upd; lia). rewrite !g_upd by lia.
      destruct (d =? par i) eqn:E1; [lia|]. destruct (d =? i) eqn:E2.
      * assert (i = d) by lia. subst i. rewrite Pd, Nat.eqb_refl. exact Lv.
      * destruct (cur =? i) eqn:E3.
        -- assert (i = cur) by lia. subst i. destruct (cur =? par cur) eqn:E4; [unfold par in *; lia|]. apply H2; auto; lia.
        -- destruct (cur =? par i) eqn:E4.
           ++ apply Ls; lia.
           ++ assert (X := H1 i Hi ltac:(lia)). rewrite !g_upd in X by lia. rewrite E3, E4 in X. exact X.
    + intros _ c Hcc Pc. rewrite Pd. rewrite !g_upd by lia. rewrite Nat.eqb_refl.
      destruct (cur =? c) eqn:E1; [unfold par in *; lia|].
      assert (X := H1 c Hcc ltac:(unfold par in *; lia)). rewrite !g_upd in X by lia. rewrite E1 in X.
      destruct (cur =? par c) eqn:E2; [unfold par in *; lia|]. rewrite Pc in X. exact X.
  - rewrite !firstn_upd. rewrite <- (g_firstn a n d) by lia. apply swap_perm; rewrite ?firstn_length; lia.
Qed.

Lemma down_done a n cur v : DInv a n cur v -> (forall c, 0 < c < n -> par c = cur -> le (g a c) v = true) -> heap (upd a cur v) n.
Proof. intros (Hc & Hn & H1 & H2) H i Hi. destruct (Nat.eq_dec (par i) cur) as [E|E]; [|now apply H1].
  rewrite E, (g_upd_eq a cur) by lia. rewrite g_upd_neq by (unfold par in *; lia). apply H; auto. Qed.

Lemma DInv_start a n v : heap a n -> 0 < n <= length a -> DInv a n 0 v.
Proof. intros H Hn. split; [lia|]. split; [lia|]. split; [|lia]. intros i Hi Hp. rewrite !g_upd_neq by lia. now apply H. Qed.

Lemma par_child c cur : 0 < c -> par c = cur -> c = 2 * cur + 1 \/ c = 2 * cur + 2.
Proof. unfold par. lia. Qed.
Lemma par_l cur : par (2 * cur + 1) = cur. Proof. unfold par. lia. Qed.
Lemma par_r cur : par (2 * cur + 2) = cur. Proof. unfold par. lia. Qed.

Lemma pop_loop_spec v n : forall fuel a cur, DInv a n cur v -> n < length a -> g a n = v -> n <= fuel + cur ->
  exists a' cur', pop_loop li fuel a n cur = Ok (a', cur') /\ length a' = length a /\ g a' n = v
    /\ cur' < n /\ heap (upd a' cur' v) n /\ Permutation (firstn n (upd a' cur' v)) (firstn n (upd a cur v)).
Proof.
  induction fuel as [|f IH]; intros a cur HI Hl Hv Hf. { destruct HI; lia. }
  cbn [pop_loop]. assert (Hcn : cur < n) by (destruct HI; lia).
  destruct (n <=? 2 * cur + 1) eqn:E1.
  - exists a, cur. repeat split; auto. apply (down_done a n cur v HI). intros c Hc Pc. apply par_child in Pc; lia.
  - rewrite (get_g a (2 * cur + 1)) by lia. cbn [bind].
    assert (exists sd, (if 2 * cur + 1 + 1 <? n then
         let! dr := get a (2 * cur + 1 + 1) in
         Ok (if negb (li dr (g a (2 * cur + 1))) then 2 * cur + 1 + 1 else 2 * cur + 1)
       else Ok (2 * cur + 1)) = Ok sd /\ 0 < sd < n /\ par sd = cur /\ cur < sd /\ (forall s, 0 < s < n -> par s = cur -> le (g a s) (g a sd) = true))
      as (sd & Esd & Hsd & Psd & Csd & Lsd).
    { destruct (2 * cur + 1 + 1 <? n) eqn:E2.
      - rewrite get_g by lia. cbn [bind]. replace (2 * cur + 1 + 1) with (2 * cur + 2) in * by lia.
        destruct (li (g a (2 * cur + 2)) (g a (2 * cur + 1))) eqn:El; cbn [negb].
        + exists (2 * cur + 1). split; auto. split; [lia|]. split; [apply par_l|]. split; [lia|]. intros s Hs Ps.
          apply par_child in Ps; [|lia]. destruct Ps as [-> | ->]; [apply le_refl|now apply li_le].
        + exists (2 * cur + 2). split; auto. split; [lia|]. split; [apply par_r|]. split; [lia|]. intros s Hs Ps.
          apply par_child in Ps; [|lia]. destruct Ps as [-> | ->]; [now apply li_ge|apply le_refl].
      - exists (2 * cur + 1). split; auto. split; [lia|]. split; [apply par_l|]. split; [lia|]. intros s Hs Ps.
          apply par_child in Ps; [|lia]. destruct Ps as [-> | ->]; [apply le_refl|lia]. }
    rewrite Esd. cbn [bind]. rewrite (get_g a n), (get_g a sd) by lia. cbn [bind]. rewrite Hv.
    destruct (li v (g a sd)) eqn:El; cbn [negb].
    + unfold put. replace (cur <? length a) with true by lia. cbn [bind].
      destruct (down_step a n cur v sd HI Hsd Psd (li_le _ _ El) Lsd) as (HI' & P).
      destruct (IH (upd a cur (g a sd)) sd HI') as (a' & cur' & E & La & Va & Cn & Hh & Pp).
      * rewrite length_upd; lia.
      * rewrite g_upd_neq by lia. exact Hv.
      * lia.
      * exists a', cur'. rewrite length_upd in La. split; auto. repeat split; auto. now rewrite Pp.
    + exists a, cur. repeat split; auto. apply (down_done a n cur v HI). intros c Hc Pc.
      apply le_trans with (g a sd); [apply Lsd; auto|now apply li_ge].
Qed.

Lemma replace_loop_spec v n : forall fuel a cur, DInv a n cur v -> n < fuel + cur ->
  exists a' cur', replace_loop li fuel a n v cur = Ok (a', cur') /\ length a' = length a
    /\ cur' < n /\ heap (upd a' cur' v) n /\ Permutation (firstn n (upd a' cur' v)) (firstn n (upd a cur v)).
Proof.
  induction fuel as [|f IH]; intros a cur HI Hf. { destruct HI; lia. }
  cbn [replace_loop]. assert (Hcn : cur < n) by (destruct HI; lia). assert (Hl : n <= length a) by (destruct HI as (_ & ? & _); lia).
  destruct (n <=? 2 * cur + 1) eqn:E1.
  - exists a, cur. repeat split; auto. apply (down_done a n cur v HI). intros c Hc Pc. apply par_child in Pc; lia.
  - rewrite (get_g a (2 * cur + 1)) by lia. cbn [bind].
    assert (exists sd, (if 2 * cur + 1 + 1 <? n then
         let! dr := get a (2 * cur + 1 + 1) in
         Ok (if li (g a (2 * cur + 1)) dr then 2 * cur + 1 + 1 else 2 * cur + 1)
       else Ok (2 * cur + 1)) = Ok sd /\ 0 < sd < n /\ par sd = cur /\ cur < sd /\ (forall s, 0 < s < n -> par s = cur -> le (g a s) (g a sd) = true))
      as (sd & Esd & Hsd & Psd & Csd & Lsd).
    { destruct (2 * cur + 1 + 1 <? n) eqn:E2.
      - rewrite get_g by lia. cbn [bind]. replace (2 * cur + 1 + 1) with (2 * cur + 2) in * by lia.
        destruct (li (g a (2 * cur + 1)) (g a (2 * cur + 2))) eqn:El.
        + exists (2 * cur + 2). split; auto. split; [lia|]. split; [apply par_r|]. split; [lia|]. intros s Hs Ps.
          apply par_child in Ps; [|lia]. destruct Ps as [-> | ->]; [now apply li_le|apply le_refl].
        + exists (2 * cur + 1). split; auto. split; [lia|]. split; [apply par_l|]. split; [lia|]. intros s Hs Ps.
          apply par_child in Ps; [|lia]. destruct Ps as [-> | ->]; [apply le_refl|now apply li_ge].
      - exists (2 * cur + 1). split; auto. split; [lia|]. split; [apply par_l|]. split; [lia|]. intros s Hs Ps.
          apply par_child in Ps; [|lia]. destruct Ps as [-> | ->]; [apply le_refl|lia]. }
    rewrite Esd. cbn [bind]. rewrite (get_g a sd) by lia. cbn [bind].
    destruct (li v (g a sd)) eqn:El.
    + unfold put. replace (cur <? length a) with true by lia. cbn [bind].
      destruct (down_step a n cur v sd HI Hsd Psd (li_le _ _ El) Lsd) as (HI' & P).
      destruct (IH (upd a cur (g a sd)) sd HI') as (a' & cur' & E & La & Cn & Hh & Pp); [lia|].
      exists a', cur'. rewrite length_upd in La. split; auto. repeat split; auto. now rewrite Pp.
    + exists a, cur. repeat split; auto. apply (down_done a n cur v HI). intros c Hc Pc.
      apply le_trans with (g a sd); [apply Lsd; auto|now apply li_ge].
Qed.

(** ** Sifting up. *)
Definition UInv (a : list T) (n e : nat) (v : T) : Prop :=
  e < n /\ n <= length a
  /\ (forall i, 0 < i < n -> i <> e -> le (g (upd a e v) i) (g (upd a e v) (par i)) = true)
  /\ (0 < e -> forall c, 0 < c < n -> par c = e -> le (g a c) (g a (par e)) = true).

Lemma up_step a n e v : UInv a n e v -> 0 < e -> le (g a (par e)) v = true ->
  UInv (upd a e (g a (par e))) n (par e) v
  /\ Permutation (firstn n (upd (upd a e (g a (par e))) (par e) v)) (firstn n (upd a e v)).
Proof.
  intros (He & Hn & H1 & H2) E0 Lv. assert (Npe : par e < e) by (unfold par; lia). split.
  - split; [lia|]. rewrite length_upd. split; [lia|]. split.
    + intros i Hi Ni. rewrite !(g_upd (upd _ _ _)) by (rewrite length_upd; lia). rewrite !g_upd by lia.
      destruct (par e =? i) eqn:E1; [lia|]. destruct (par e =? par i) eqn:E2.
      * destruct (e =? i) eqn:E3; [exact Lv|].
        assert (X := H1 i Hi ltac:(lia)). rewrite !g_upd in X by lia. rewrite E3 in X.
        replace (e =? par i) with false in X by lia. apply le_trans with (g a (par e)); auto.
        replace (par e) with (par i) by lia. exact X.
      * destruct (e =? i) eqn:E3; [assert (e = i) by lia; subst i; lia|]. destruct (e =? par i) eqn:E4.
        -- apply H2; lia.
        -- assert (X := H1 i Hi ltac:(lia)). rewrite !g_upd in X by lia. rewrite E3, E4 in X. exact X.
    + intros Hpe c Hc Pc. assert (X := H1 (par e) ltac:(lia) ltac:(lia)). rewrite !g_upd in X by lia.
      replace (e =? par e) with false in X by lia. replace (e =? par (par e)) with false in X by (unfold par in *; lia).
      rewrite !g_upd by lia. replace (e =? par (par e)) with false by (unfold par in *; lia).
      destruct (e =? c) eqn:E3; [exact X|].
      assert (Y := H1 c Hc ltac:(lia)). rewrite !g_upd in Y by lia. rewrite E3 in Y.
      replace (e =? par c) with false in Y by lia. rewrite Pc in Y. eapply le_trans; eauto.
  - rewrite !firstn_upd. rewrite <- (g_firstn a n (par e)) by lia. apply swap_perm; rewrite ?firstn_length; lia.
Qed.

Lemma up_done a n e v : UInv a n e v -> e = 0 \/ le v (g a (par e)) = true -> heap (upd a e v) n.
Proof. intros (He & Hn & H1 & H2) H i Hi. destruct (Nat.eq_dec i e) as [->|]; [|now apply H1].
  destruct H as [H|H]; [lia|]. rewrite g_upd_eq by lia. rewrite g_upd_neq by (unfold par; lia). exact H. Qed.

Lemma push_loop_spec v n : forall fuel a e, UInv a n e v -> e <= fuel ->
  exists a' e', push_loop li fuel a v e = Ok (a', e') /\ length a' = length a /\ e' < n
   /\ heap (upd a' e' v) n /\ Permutation (firstn n (upd a' e' v)) (firstn n (upd a e v)).
Proof.
  induction fuel as [|f IH]; intros a e HI Hf.
  - assert (e = 0) by lia. subst e. cbn [push_loop]. exists a, 0. split; auto. split; auto. split; [apply HI|]. split; auto.
    apply (up_done a n 0 v HI). auto.
  - destruct e as [|e]; cbn [push_loop].
    { exists a, 0. split; auto. split; auto. split; [apply HI|]. split; auto. apply (up_done a n 0 v HI). auto. }
    assert (Ep : e / 2 = par (S e)) by (unfold par; f_equal; lia). rewrite Ep.
    assert (HI' := HI). destruct HI' as (He & Hn & _). assert (par (S e) <= e) by (unfold par; lia).
    rewrite get_g by lia. cbn [bind]. destruct (li v (g a (par (S e)))) eqn:El; cbn [negb].
    + exists a, (S e). split; auto. split; auto. split; auto. split; auto. apply (up_done a n (S e) v HI). right. now apply li_le.
    + unfold put. replace (S e <? length a) with true by lia. cbn [bind].
      destruct (up_step a n (S e) v HI ltac:(lia) (li_ge _ _ El)) as (HI' & P).
      destruct (IH _ _ HI') as (a' & e' & E & La & En & Hh & Pp); [lia|].
      exists a', e'. rewrite length_upd in La. split; auto. split; auto. split; auto. split; auto. now rewrite Pp.
Qed.

Lemma upd_beyond (l : list T) n v : length l <= n -> upd l n v = l.
Proof. revert n; induction l as [|y l IH]; intros [|n] H; simpl in *; auto; try lia. f_equal. apply IH. lia. Qed.

(** ** Queue level *)
Definition RepQ (q : pqueue T) (l : list T) : Prop :=
  length (pq q) = N.to_nat (size_available q) /\ pq_size q <= length (pq q) /\ (0 < size_available q)%N
  /\ heap (pq q) (pq_size q) /\ Permutation (firstn (pq_size q) (pq q)) l.

Lemma RepQ_len q l : RepQ q l -> length l = pq_size q.
Proof. intros (L & S1 & _ & _ & P). rewrite <- (Permutation_length P), firstn_length. lia. Qed.

Lemma top_rep q l : RepQ q l -> l <> [] -> exists x, pq_top q = Ok x /\ most_important le x l /\ x = g (pq q) 0.
Proof.
  intros R Hl. assert (Hn := RepQ_len q l R). destruct R as (L & S1 & S0 & Hh & P).
  destruct l as [|y l]; [congruence|]. simpl in Hn. unfold pq_top. rewrite get_g by lia. eexists; split; [reflexivity|]. split; auto. split.
  - apply (Permutation_in _ P). rewrite <- (g_firstn (pq q) (pq_size q) 0) by lia. apply nth_In. rewrite firstn_length. lia.
  - intros z Hz. apply (Permutation_in z (Permutation_sym P)) in Hz. apply firstn_in in Hz; [|lia].
    destruct Hz as (i & Hi & <-). now apply (heap_root _ (pq_size q)).
Qed.

Lemma firstn_S (a : list T) n : n < length a -> firstn (S n) a = firstn n a ++ [g a n].
Proof. revert n; induction a as [|y a IH]; intros [|n] H; simpl in *; try lia; auto. f_equal. apply IH; lia. Qed.

(** Replacing cell [i] (holding x) by the last value. *)
Lemma last_perm (a : list T) n i : i < n -> n < length a ->
  Permutation (firstn (S n) a) (g a i :: firstn n (upd a i (g a n))).
Proof. intros Hi Hn. rewrite firstn_S by lia. rewrite firstn_upd. rewrite <- (g_firstn a n i) at 1 by lia.
  rewrite upd_perm by (rewrite firstn_length; lia). symmetry. apply Permutation_cons_append. Qed.

Lemma pop_rep q l : RepQ q l -> l <> [] -> exists q' l', pq_pop li q = Ok q' /\ RepQ q' l' /\ Permutation l (g (pq q) 0 :: l')
  /\ size_available q' = size_available q.
Proof.
  intros R Hl. assert (Hn := RepQ_len q l R). destruct R as (L & S1 & S0 & Hh & P).
  unfold pq_pop. destruct (pq_size q) as [|n] eqn:En. { destruct l; simpl in Hn; congruence. }
  destruct (0 <? n) eqn:E0.
  - assert (HI : DInv (pq q) n 0 (g (pq q) n)). { apply DInv_start; [|lia]. intros i Hi. apply Hh. lia. }
    destruct (pop_loop_spec (g (pq q) n) n n (pq q) 0 HI) as (a' & c' & E & La & Va & Cn & Hh' & Pp); try lia; auto.
    rewrite E; cbn [bind]. rewrite get_g by lia. cbn [bind]. unfold put. replace (c' <? length a') with true by lia. cbn [bind].
    rewrite Va. eexists; eexists; split; [reflexivity|]. split; [|split; [|reflexivity]].
    + unfold RepQ; cbn [pq size_available pq_size]. rewrite length_upd. split; [lia|]. split; [lia|]. split; [assumption|]. split; [exact Hh'|]. reflexivity.
    + rewrite <- P, Pp. apply last_perm; lia.
  - assert (n = 0) by lia. subst n. eexists; exists []. split; [reflexivity|]. split; [|split; [|reflexivity]].
    + unfold RepQ; cbn [pq size_available pq_size]. split; [lia|]. split; [lia|]. split; [assumption|]. split; [intros i Hi; lia|]. reflexivity.
    + rewrite <- P. rewrite firstn_S by lia. reflexivity.
Qed.

Lemma replace_rep q l v : RepQ q l -> l <> [] -> exists q' l', pq_replaceTop li q v = Ok q' /\ RepQ q' (v :: l') /\ Permutation l (g (pq q) 0 :: l')
  /\ size_available q' = size_available q.
Proof.
  intros R Hl. assert (Hn := RepQ_len q l R). destruct R as (L & S1 & S0 & Hh & P).
  assert (Hpos : 0 < pq_size q). { destruct l; simpl in Hn; [congruence|lia]. }
  unfold pq_replaceTop. assert (HI := DInv_start _ _ v Hh ltac:(lia)).
  destruct (replace_loop_spec v (pq_size q) (S (pq_size q)) (pq q) 0 HI) as (a' & c' & E & La & Cn & Hh' & Pp); [lia|].
  rewrite E; cbn [bind]. unfold put. replace (c' <? length a') with true by lia. cbn [bind].
  destruct (firstn (pq_size q) (pq q)) as [|x r] eqn:Ef. { assert (X := firstn_length (pq_size q) (pq q)). rewrite Ef in X. simpl in X. lia. }
  exists (mk_pq (size_available q) (pq_size q) (upd a' c' v)), r. split; [reflexivity|].
  assert (Ex : g (pq q) 0 = x). { rewrite <- (g_firstn (pq q) (pq_size q) 0) by lia. now rewrite Ef. }
  split; [|split; [|reflexivity]].
  + unfold RepQ; cbn [pq size_available pq_size]. rewrite length_upd. split; [lia|]. split; [lia|]. split; [assumption|]. split; [exact Hh'|].
    rewrite Pp. rewrite firstn_upd, Ef. reflexivity.
  + rewrite Ex, <- P. reflexivity.
Qed.

Lemma push_rep q l v : RepQ q l -> (N.of_nat (length l) < 2 ^ 31)%N -> exists q', pq_push li dflt q v = Ok q' /\ RepQ q' (v :: l).
Proof.
  intros R Hb. assert (Hn := RepQ_len q l R). destruct R as (L & S1 & S0 & Hh & P).
  unfold pq_push.
  assert (exists q1, (if N.eqb (N.of_nat (pq_size q)) (size_available q) then double_size dflt q else Ok q) = Ok q1
     /\ length (pq q1) = N.to_nat (size_available q1) /\ pq_size q1 = pq_size q /\ pq_size q1 < length (pq q1)
     /\ firstn (pq_size q) (pq q1) = firstn (pq_size q) (pq q)) as (q1 & E1 & L1 & Z1 & Lt1 & F1).
  { destruct (N.eqb_spec (N.of_nat (pq_size q)) (size_available q)) as [Ee|Ne].
    - unfold double_size, copy_into, new_array. rewrite repeat_length.
      assert (Em : N.modulo (size_available q * 2) (2 ^ 32) = (size_available q * 2)%N) by (apply N.mod_small; lia). rewrite Em.
      replace ((N.to_nat (size_available q) <=? length (pq q)) && (N.to_nat (size_available q) <=? N.to_nat (size_available q * 2))) with true by lia.
      cbn [bind]. eexists; split; [reflexivity|]. cbn [pq size_available pq_size].
      rewrite app_length, firstn_length, skipn_length, repeat_length. split; [lia|]. split; auto. split; [lia|].
      rewrite firstn_app, firstn_firstn, firstn_length. replace (pq_size q - _) with 0 by lia. rewrite firstn_O, app_nil_r. f_equal. lia.
    - exists q. split; auto. split; auto. split; auto. split; auto. lia. }
  rewrite E1. cbn [bind]. set (n := pq_size q1) in *.
  assert (Hh1 : heap (pq q1) n).
  { intros i Hi. rewrite <- (g_firstn (pq q1) n i), <- (g_firstn (pq q1) n (par i)) by (unfold par; lia). rewrite Z1 at 1 2. rewrite F1.
    rewrite !g_firstn by (unfold par; lia). apply Hh. lia. }
  assert (HI : UInv (pq q1) (S n) n v).
  { split; [lia|]. split; [lia|]. split.
    - intros i Hi Ni. rewrite !g_upd_neq by (unfold par; lia). apply Hh1. lia.
    - intros _ c Hc Pc. unfold par in Pc. lia. }
  destruct (push_loop_spec v (S n) n (pq q1) n HI (le_n _)) as (a' & e' & E & La & En & Hh' & Pp).
  rewrite E. cbn [bind]. unfold put. replace (e' <? length a') with true by lia. cbn [bind].
  eexists; split; [reflexivity|]. unfold RepQ; cbn [pq size_available pq_size]. rewrite length_upd. split; [lia|]. split; [lia|]. split; [lia|]. split; auto.
  rewrite Pp. rewrite firstn_S by (rewrite length_upd; lia). rewrite g_upd_eq by lia. rewrite firstn_upd.
  replace (upd (firstn n (pq q1)) n v) with (firstn n (pq q1)).
  - rewrite Z1, F1, P. symmetry. apply Permutation_cons_append.
  - symmetry. apply upd_beyond. rewrite firstn_length; lia.
Qed.

Lemma drain_rep : forall n q l, RepQ q l -> pq_size q = n ->
  exists out q', drain li n q = Ok (out, q') /\ Permutation out l /\ StronglySorted (fun a b => le b a = true) out
    /\ RepQ q' [] /\ size_available q' = size_available q.
Proof.
  induction n as [|n IH]; intros q l R En; assert (Hn := RepQ_len q l R); cbn [drain]; unfold pq_empty; rewrite En.
  - cbn [Nat.eqb]. destruct l; [|simpl in Hn; lia]. exists [], q. repeat split; auto; try apply R. constructor.
  - cbn [Nat.eqb]. assert (Hl : l <> []) by (destruct l; simpl in *; [lia|congruence]).
    destruct (top_rep q l R Hl) as (x & Ex & (Hin & Hmax) & Eg). rewrite Ex; cbn [bind].
    destruct (pop_rep q l R Hl) as (q' & l' & Ep & R' & P' & Es). rewrite Ep; cbn [bind]. rewrite <- Eg in P'.
    assert (En' : pq_size q' = n). { rewrite <- (RepQ_len q' l' R'). assert (X := Permutation_length P'). simpl in X. lia. }
    destruct (IH q' l' R' En') as (out & q'' & Ed & Po & So & R'' & Es'). rewrite Ed; cbn [bind].
    exists (x :: out), q''. split; auto. split; [rewrite Po; now symmetry|]. split; [|split; [exact R''|congruence]].
    constructor; auto. apply Forall_forall. intros y Hy. apply Hmax. apply (Permutation_in y (Permutation_sym P')). right.
    apply (Permutation_in y Po Hy).
Qed.

Lemma reserve_rep q amt : RepQ q [] -> exists q', pq_reserve dflt q amt = Ok q' /\ RepQ q' [].
Proof. intros R. assert (Hn := RepQ_len q _ R). simpl in Hn. unfold pq_reserve, pq_empty. rewrite <- Hn. cbn [Nat.eqb invariant bind].
  destruct (0 <? amt) eqn:E; eexists; (split; [reflexivity|auto]).
  unfold RepQ; cbn [pq size_available pq_size]. unfold new_array. rewrite repeat_length. repeat split; try lia; auto. intros i Hi; lia. Qed.

(** ** Bottom-up pop, comparator in its <= form *)
Section BU.
Hypothesis li_is_le : forall a b, li a b = le a b.

(** hole invariant: the array with the hole filled by its parent is a heap *)
Definition HInv (a : list T) (n hole : nat) : Prop :=
  hole < n /\ n <= length a
  /\ (forall i, 0 < i < n -> i <> hole -> par i <> hole -> le (g a i) (g a (par i)) = true)
  /\ (0 < hole -> forall c, 0 < c < n -> par c = hole -> le (g a c) (g a (par hole)) = true).

Lemma HInv_root a n hole : HInv a n hole -> 0 < hole -> forall i, i < n -> i <> hole -> le (g a i) (g a 0) = true.
Proof.
  intros (Hh & Hn & H1 & H2) H0 i Hi Ni.
  assert (Heap : heap (upd a hole (g a (par hole))) n).
  { intros j Hj. rewrite !g_upd by lia. destruct (hole =? j) eqn:E1; destruct (hole =? par j) eqn:E2.
    - apply le_refl.
    - replace j with hole by lia. apply le_refl.
    - apply H2; lia.
    - apply H1; lia. }
  assert (X := heap_root _ _ Heap i Hi). rewrite !g_upd_neq in X by lia. exact X.
Qed.

Lemma bu_down_spec n top : forall fuel a hole, HInv a n hole -> n < fuel + hole ->
  exists a' hole', bu_down li fuel a n hole (2 * hole + 1) = Ok (a', hole') /\ length a' = length a
   /\ HInv a' n hole' /\ n <= 2 * hole' + 1 /\ hole <= hole' /\ (hole < hole' \/ n <= 2 * hole + 1)
   /\ Permutation (firstn n (upd a' hole' top)) (firstn n (upd a hole top))
   /\ (hole' <> n - 1 -> hole <> n - 1 -> g a' (n - 1) = g a (n - 1))
   /\ (hole' = n - 1 -> hole <> n - 1 -> g a' (par (n - 1)) = g a (n - 1)).
Proof.
  induction fuel as [|f IH]; intros a hole HI Hf. { destruct HI; lia. }
  cbn [bu_down]. assert (HI' := HI). destruct HI' as (Hh & Hn & H1 & H2).
  destruct (2 * hole + 1 <? n) eqn:E1.
  - assert (exists sd, (if 2 * hole + 1 + 1 =? n then Ok (2 * hole + 1)
         else let! r := get a (2 * hole + 1 + 1) in
              let! l := get a (2 * hole + 1) in
              Ok (if li r l then 2 * hole + 1 else 2 * hole + 1 + 1)) = Ok sd
       /\ 0 < sd < n /\ par sd = hole /\ hole < sd /\ (forall s, 0 < s < n -> par s = hole -> le (g a s) (g a sd) = true))
      as (sd & Esd & Hsd & Psd & Csd & Lsd).
    { destruct (2 * hole + 1 + 1 =? n) eqn:E2.
      - exists (2 * hole + 1). split; auto. split; [lia|]. split; [apply par_l|]. split; [lia|]. intros s Hs Ps.
        apply par_child in Ps; [|lia]. destruct Ps as [-> | ->]; [apply le_refl|lia].
      - rewrite !get_g by lia. cbn [bind]. replace (2 * hole + 1 + 1) with (2 * hole + 2) in * by lia.
        destruct (li (g a (2 * hole + 2)) (g a (2 * hole + 1))) eqn:El.
        + exists (2 * hole + 1). split; auto. split; [lia|]. split; [apply par_l|]. split; [lia|]. intros s Hs Ps.
          apply par_child in Ps; [|lia]. destruct Ps as [-> | ->]; [apply le_refl|now apply li_le].
        + exists (2 * hole + 2). split; auto. split; [lia|]. split; [apply par_r|]. split; [lia|]. intros s Hs Ps.
          apply par_child in Ps; [|lia]. destruct Ps as [-> | ->]; [now apply li_ge|apply le_refl]. }
    rewrite Esd. cbn [bind]. rewrite (get_g a sd) by lia. cbn [bind]. unfold put. replace (hole <? length a) with true by lia. cbn [bind].
    set (a1 := upd a hole (g a sd)).
    assert (HI1 : HInv a1 n sd).
    { split; [lia|]. unfold a1. rewrite length_upd. split; [lia|]. split.
      - intros i Hi Ni Np. rewrite !g_upd by lia. destruct (hole =? i) eqn:E3.
        + replace i with hole in * by lia. destruct (hole =? par hole) eqn:E4; [unfold par in *; lia|]. apply H2; auto; lia.
        + destruct (hole =? par i) eqn:E4; [apply Lsd; lia|]. apply H1; lia.
      - intros _ c Hc Pc. rewrite Psd. rewrite !g_upd by lia. rewrite Nat.eqb_refl.
        destruct (hole =? c) eqn:E3; [unfold par in *; lia|]. rewrite <- Pc at 1. apply H1; auto; unfold par in *; lia. }
    destruct (IH a1 sd HI1) as (a' & h' & E & La & HI2 & Hleaf & Hge & Hor & Pp & B1 & B2); [lia|].
    exists a', h'. split; auto. unfold a1 in La at 1. rewrite length_upd in La. split; auto. split; auto. split; auto. split; [lia|]. split; [lia|]. split.
    + rewrite Pp. unfold a1. rewrite !firstn_upd. rewrite <- (g_firstn a n sd) by lia. apply swap_perm; rewrite ?firstn_length; lia.
    + destruct (Nat.eq_dec sd (n - 1)) as [Es|Ns].
      * assert (h' = sd) by (destruct HI2; lia). subst h'.
        split; [lia|]. intros _ Nh.
        assert (a' = a1). { destruct f; cbn [bu_down] in E; [discriminate|]. replace (2 * sd + 1 <? n) with false in E by lia. now inversion E. }
        subst a'. rewrite <- Es, Psd. unfold a1. rewrite g_upd_eq by lia. reflexivity.
      * split.
        -- intros N1 N2. rewrite B1 by auto. unfold a1. apply g_upd_neq. auto.
        -- intros N1 N2. rewrite B2 by auto. unfold a1. apply g_upd_neq. auto.
  - exists a, hole. split; auto. split; auto. split; auto. split; [lia|]. split; [lia|]. split; [lia|]. split; auto. split; auto. lia.
Qed.

Lemma bu_up_spec m v : forall fuel a hole, UInv a m hole v -> m < length a -> g a m = v -> 0 < hole -> hole < fuel ->
  le v (g a 0) = true ->
  exists a' h', bu_up li fuel a m hole = Ok (a', h') /\ length a' = length a /\ h' < m /\ g a' m = v
    /\ heap (upd a' h' v) m /\ Permutation (firstn m (upd a' h' v)) (firstn m (upd a hole v)).
Proof.
  induction fuel as [|f IH]; intros a hole HI Hl Hv H0 Hf L0; [lia|].
  destruct hole as [|h]; [lia|]. cbn [bu_up]. assert (HI' := HI). destruct HI' as (Hh & Hn & _).
  assert (Ep : h / 2 = par (S h)) by (unfold par; f_equal; lia). rewrite Ep.
  assert (Hp : par (S h) <= h) by (unfold par; lia).
  rewrite (get_g a m), (get_g a (par (S h))) by lia. cbn [bind]. rewrite Hv.
  destruct (li v (g a (par (S h)))) eqn:El; cbn [negb].
  - exists a, (S h). repeat split; auto. apply (up_done a m (S h) v HI). right. now apply li_le.
  - unfold put. replace (S h <? length a) with true by lia. cbn [bind].
    assert (Hpp : 0 < par (S h)). { destruct (Nat.eq_dec (par (S h)) 0) as [E|]; [|lia]. rewrite E, li_is_le in El. congruence. }
    destruct (up_step a m (S h) v HI ltac:(lia) (li_ge _ _ El)) as (HI' & P).
    destruct (IH _ _ HI') as (a' & e' & E & La & En & Hva & Hh' & Pp); try (rewrite ?length_upd; lia).
    + now rewrite g_upd_neq by lia.
    + now rewrite g_upd_neq by lia.
    + exists a', e'. rewrite length_upd in La. split; auto. split; auto. split; auto. split; auto. split; auto. now rewrite Pp.
Qed.

Lemma popbu_rep q l : RepQ q l -> l <> [] -> exists q' l', pq_pop_bottom_up li q = Ok q' /\ RepQ q' l' /\ Permutation l (g (pq q) 0 :: l')
  /\ size_available q' = size_available q.
Proof.
  intros R Hl. assert (Hn := RepQ_len q l R). destruct R as (L & S1 & S0 & Hh & P).
  unfold pq_pop_bottom_up. destruct (pq_size q) as [|n] eqn:En. { destruct l; simpl in Hn; congruence. }
  set (top := g (pq q) 0).
  assert (HI : HInv (pq q) (S n) 0). { split; [lia|]. split; [lia|]. split; [|lia]. intros i Hi _ _. apply Hh. lia. }
  destruct (bu_down_spec (S n) top (S (S n)) (pq q) 0 HI) as (a & hole & E & La & HI2 & Hleaf & _ & Hor & Pp & B1 & B2); [lia|].
  replace (2 * 0 + 1) with 1 in E by lia. rewrite E. cbn [bind].
  replace (upd (pq q) 0 top) with (pq q) in Pp by (symmetry; apply upd_same; apply nth_error_nth'; lia).
  replace (S n - 1) with n in B1, B2 by lia.
  assert (HI2' := HI2). destruct HI2' as (Hhole & Hlen & G1 & G2).
  destruct (0 <? hole) eqn:E0.
  - rewrite (get_g a n) by lia. cbn [bind]. rewrite li_is_le, le_refl. cbn [invariant bind].
    destruct (Nat.eq_dec hole n) as [Eh|Nh].
    + (* the hole is the last cell *)
      subst hole. specialize (B2 eq_refl ltac:(lia)).
      (* pq[n] itself is unchanged by the downward pass until the end *)
      assert (Vn : g a n = g (pq q) n).
      { clear -E Hhole Hlen La E0 B2.
        assert (X : forall f a0 h0 a1 h1, bu_down li f a0 (S n) h0 (2 * h0 + 1) = Ok (a1, h1) -> h0 < n -> S n <= length a0 -> g a1 n = g a0 n).
        { induction f as [|f IH]; intros a0 h0 a1 h1; cbn [bu_down]; [discriminate|].
          destruct (2 * h0 + 1 <? S n) eqn:E1; [|inversion 1; subst; auto].
          intros Eb Hh Hl0. revert Eb.
          assert (exists sd, (if 2 * h0 + 1 + 1 =? S n then Ok (2 * h0 + 1)
             else let! r := get a0 (2 * h0 + 1 + 1) in
                  let! l := get a0 (2 * h0 + 1) in
                  Ok (if li r l then 2 * h0 + 1 else 2 * h0 + 1 + 1)) = Ok sd /\ sd < S n) as (sd & Esd & Hsd).
          { destruct (2 * h0 + 1 + 1 =? S n) eqn:E2; [eexists; split; [reflexivity|lia]|].
            rewrite !get_g by lia. cbn [bind]. eexists; split; [reflexivity|]. destruct (li _ _); lia. }
          rewrite Esd. cbn [bind]. rewrite (get_g a0 sd) by lia. cbn [bind]. unfold put. replace (h0 <? length a0) with true by lia. cbn [bind].
          intros Eb. destruct (Nat.eq_dec sd n) as [->|Nsd].
          - destruct f; cbn [bu_down] in Eb; [discriminate|]. replace (2 * n + 1 <? S n) with false in Eb by lia. inversion Eb; subst.
            apply g_upd_neq. lia.
          - rewrite (IH _ _ _ _ Eb); [apply g_upd_neq; lia|lia|rewrite length_upd; lia]. }
        replace 1 with (2 * 0 + 1) in E by lia. apply (X _ _ _ _ _ E); lia. }
      assert (Eup : bu_up li (S (S n)) a n n = Ok (a, n)).
      { cbn [bu_up]. destruct n as [|n']; [lia|]. assert (Ep : n' / 2 = par (S n')) by (unfold par; f_equal; lia). rewrite Ep.
        assert (par (S n') <= n') by (unfold par; lia).
        rewrite !get_g by lia. cbn [bind]. rewrite B2, Vn, li_is_le, le_refl. reflexivity. }
      rewrite Eup. cbn [bind]. rewrite (get_g a n) by lia. cbn [bind]. unfold put. replace (n <? length a) with true by lia. cbn [bind].
      replace (upd a n (g a n)) with a by (symmetry; apply upd_same; apply nth_error_nth'; lia).
      eexists; eexists; split; [reflexivity|]. split; [|split; [|reflexivity]].
      * unfold RepQ; cbn [pq size_available pq_size]. split; [lia|]. split; [lia|]. split; [assumption|]. split; [|reflexivity].
        intros i Hi. apply G1; [lia|lia|]. unfold par; lia.
      * rewrite <- P, <- Pp. rewrite firstn_S by (rewrite length_upd; lia). rewrite g_upd_eq by lia. rewrite firstn_upd.
        replace (upd (firstn n a) n top) with (firstn n a).
        -- symmetry. apply Permutation_cons_append.
        -- symmetry. apply upd_beyond. rewrite firstn_length; lia.
    + set (v := g a n).
      assert (UI : UInv a n hole v).
      { split; [lia|]. split; [lia|]. split.
        - intros i Hi Ni. rewrite !g_upd_neq by (unfold par in *; lia). apply G1; try lia. unfold par; lia.
        - intros _ c Hc Pc. apply G2; lia. }
      assert (Lr : le v (g a 0) = true) by (apply (HInv_root a (S n) hole HI2); lia).
      destruct (bu_up_spec n v (S (S n)) a hole UI) as (a1 & h1 & Eu & Lu & Hu & Vu & Hhu & Pu); try lia; auto.
      rewrite Eu. cbn [bind]. rewrite (get_g a1 n) by lia. cbn [bind]. unfold put. replace (h1 <? length a1) with true by lia. cbn [bind].
      rewrite Vu. eexists; eexists; split; [reflexivity|]. split; [|split; [|reflexivity]].
      * unfold RepQ; cbn [pq size_available pq_size]. rewrite length_upd. split; [lia|]. split; [lia|]. split; [assumption|]. split; [exact Hhu|]. reflexivity.
      * rewrite <- P, <- Pp, Pu. unfold v.
        assert (X := last_perm (upd a hole top) n hole ltac:(lia) ltac:(rewrite length_upd; lia)).
        rewrite g_upd_eq, (g_upd_neq a hole n) in X by lia. rewrite X. constructor.
        replace (upd (upd a hole top) hole (g a n)) with (upd a hole (g a n)); [reflexivity|].
        clear. revert hole. generalize (g a n). intros y. induction a as [|z a IH]; intros [|h]; simpl; auto. f_equal. apply IH.
  - assert (hole = 0) by lia. subst hole. assert (n = 0) by lia. subst n. cbn [bind]. rewrite get_g by lia. cbn [bind].
    unfold put. replace (0 <? length a) with true by lia. cbn [bind]. eexists; exists []; split; [reflexivity|]. split; [|split; [|reflexivity]].
    + unfold RepQ; cbn [pq size_available pq_size]. rewrite length_upd. split; [lia|]. split; [lia|]. split; [assumption|]. split; [intros i Hi; lia|]. reflexivity.
    + rewrite <- P. rewrite firstn_S by lia. reflexivity.
Qed.
End BU.
End PP.
