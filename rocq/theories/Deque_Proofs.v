(** Deque_Model refines Deque_Spec. *)
From Coq Require Import List Arith NArith ZArith Lia Bool.
From Coq Require Import ZifyBool ZifyNat ZifyN.
From Verif Require Import Common CommonFacts Deque_Spec Deque_Model.
Import ListNotations.

Lemma wrap a q : q > 0 -> a < 2 * q -> a mod q = if a <? q then a else a - q.
Proof. intros Hq Ha. destruct (a <? q) eqn:E; [apply Nat.mod_small; lia|].
  replace a with ((a - q) + 1 * q) at 1 by lia. rewrite Nat.mod_add by lia. apply Nat.mod_small; lia. Qed.

Lemma nth_error_repeat {A} (a : A) n i : i < n -> nth_error (repeat a n) i = Some a.
Proof. revert i; induction n as [|n IH]; intros [|i] H; simpl; auto; try lia. apply IH; lia. Qed.

Ltac ifs := repeat match goal with |- context[if ?b then _ else _] => let E := fresh "E" in destruct b eqn:E end.

Section DP.
Context {T : Type}.
Notation mem := (list (option T)).

Definition Rep (d : deque T) (l : list T) : Prop :=
  length (cells d) = q_size d /\ 1 < q_size d /\ (N.of_nat (q_size d) < 2 ^ 60)%N /\ q_front d < q_size d
  /\ length l < q_size d /\ q_back d = (q_front d + length l) mod q_size d
  /\ (forall i, i < q_size d -> nth_error (cells d) ((q_front d + i) mod q_size d) = Some (nth_error l i)).

Lemma read_ok (m : mem) i v : nth_error m i = Some (Some v) -> read m i = Ok v.
Proof. intros H. unfold read. now rewrite (get_Some _ _ _ H). Qed.
Lemma construct_ok (m : mem) i v : nth_error m i = Some None -> construct m i v = Ok (upd m i (Some v)).
Proof. intros H. unfold construct. rewrite (get_Some _ _ _ H); simpl. apply put_ok. eapply nth_error_lt; eauto. Qed.
Lemma destroy_ok (m : mem) i v : nth_error m i = Some (Some v) -> destroy m i = Ok (upd m i None).
Proof. intros H. unfold destroy. rewrite (get_Some _ _ _ H); simpl. apply put_ok. eapply nth_error_lt; eauto. Qed.
Lemma assign_ok (m : mem) i v w : nth_error m i = Some (Some v) -> assign m i w = Ok (upd m i (Some w)).
Proof. intros H. unfold assign. rewrite (get_Some _ _ _ H); simpl. apply put_ok. eapply nth_error_lt; eauto. Qed.
Lemma allocate_ok n : (N.of_nat n < 2 ^ 60)%N -> @allocate T n = Ok (repeat None n).
Proof. intros H. unfold allocate. apply N.ltb_lt in H. now rewrite H. Qed.

Lemma Rep_cell d l i v : Rep d l -> nth_error l i = Some v -> nth_error (cells d) ((q_front d + i) mod q_size d) = Some (Some v).
Proof. intros (L & S1 & _ & F & Le & B & C) H. rewrite C, H; auto. apply nth_error_lt in H. lia. Qed.

Lemma pos_lt d l i : Rep d l -> (q_front d + i) mod q_size d < q_size d.
Proof. intros (L & S1 & _). apply Nat.mod_upper_bound. lia. Qed.

Lemma pos_inj q f i j : f < q -> i < q -> j < q -> (f + i) mod q = (f + j) mod q -> i = j.
Proof. intros. rewrite !wrap in H2 by lia. destruct (f + i <? q) eqn:E1, (f + j <? q) eqn:E2; lia. Qed.

(** Every array index is some logical position. *)
Lemma pos_onto q f p : f < q -> p < q -> exists i, i < q /\ (f + i) mod q = p.
Proof. intros. exists (if f <=? p then p - f else p + q - f). destruct (f <=? p) eqn:E; (split; [lia|]).
  - rewrite wrap by lia. ifs; lia.
  - rewrite wrap by lia. ifs; lia. Qed.

Lemma new_rep n d : deque_new n = Ok d -> Rep d [] /\ d_capacity d = n - 1.
Proof. unfold deque_new, invariant. destruct (1 <? n) eqn:E; simpl; [|discriminate]. unfold allocate.
  destruct (N.ltb _ _) eqn:E2; simpl; [|discriminate]. inversion 1; subst. split; [|reflexivity].
  unfold Rep; simpl. rewrite repeat_length. repeat split; try lia.
  - rewrite Nat.mod_0_l by lia; auto.
  - intros i Hi. rewrite Nat.mod_small by lia. rewrite nth_error_repeat by lia. destruct i; reflexivity. Qed.

Lemma size_rep d l : Rep d l -> d_size d = length l.
Proof. intros (L & S1 & _ & F & Le & B & C). unfold d_size. rewrite B.
  rewrite (wrap (q_front d + length l)) by lia. ifs; rewrite wrap by lia; ifs; lia. Qed.

Lemma empty_rep d l : Rep d l -> d_empty d = (length l =? 0).
Proof. intros (L & S1 & _ & F & Le & B & C). unfold d_empty. rewrite B, wrap by lia. ifs; lia. Qed.

Lemma at_rep d l i v : Rep d l -> nth_error l i = Some v -> d_at d i = Ok v.
Proof. intros R H. unfold d_at. apply read_ok. eapply Rep_cell; eauto. Qed.

Lemma front_rep d v l : Rep d (v :: l) -> d_front d = Ok v.
Proof. intros R. unfold d_front. assert (X := at_rep d _ 0 v R eq_refl). unfold d_at in X. rewrite Nat.add_0_r in X.
  rewrite Nat.mod_small in X; auto. apply R. Qed.

Lemma last_indep (l : list T) : forall b a v, last (b :: l) a = last (b :: l) v.
Proof. induction l as [|c l IH]; intros b a v; [reflexivity|]. exact (IH c a v). Qed.

Lemma back_rep d v l : Rep d (v :: l) -> d_back d = Ok (last l v).
Proof. intros R. assert (H := R). destruct H as (L & S1 & _ & F & Le & B & C).
  assert (X : nth_error (v :: l) (length l) = Some (last l v)).
  { clear. revert v. induction l as [|a l IH]; intros v; [reflexivity|]. simpl length. cbn [nth_error]. rewrite IH.
    f_equal. destruct l; [reflexivity|]. exact (last_indep l t a v). }
  assert (Y := at_rep d _ _ _ R X). unfold d_at in Y. unfold d_back. rewrite <- Y. f_equal.
  rewrite B. simpl length. simpl length in Le. rewrite (wrap (q_front d + S (length l))), (wrap (q_front d + length l)) by lia.
  ifs; try lia; rewrite wrap by lia; ifs; lia. Qed.

Lemma set_rep d l i v : Rep d l -> i < length l -> exists d', d_set_at d i v = Ok d' /\ Rep d' (upd l i v) /\ q_size d' = q_size d.
Proof. intros R Hi. assert (H := R). destruct H as (L & S1 & Sz & F & Le & B & C).
  destruct (nth_error l i) as [w|] eqn:E; [|apply nth_error_None in E; lia].
  unfold d_set_at. rewrite (assign_ok _ _ w) by (eapply Rep_cell; eauto). cbn [bind].
  eexists; split; [reflexivity|]. unfold Rep; cbn [cells q_front q_back q_size]. rewrite !length_upd. repeat split; auto.
  intros j Hj. destruct (Nat.eq_dec i j) as [<-|Nj].
  - rewrite !nth_error_upd_eq; auto. rewrite L. eapply pos_lt; eauto.
  - rewrite !nth_error_upd_neq; auto. intros Ej. apply pos_inj in Ej; lia.
Qed.

Lemma pop_rep d v l : Rep d (v :: l) -> exists d', d_pop_front d = Ok d' /\ Rep d' l /\ q_size d' = q_size d.
Proof. intros R. assert (H := R). destruct H as (L & S1 & Sz & F & Le & B & C). simpl length in *.
  unfold d_pop_front. rewrite (destroy_ok _ _ v).
  2:{ assert (X := Rep_cell d _ 0 v R eq_refl). rewrite Nat.add_0_r, Nat.mod_small in X; auto. }
  cbn [bind]. eexists; split; [reflexivity|]. split; [|reflexivity]. unfold Rep; cbn [cells q_front q_back q_size].
  rewrite length_upd. split; auto. split; auto. split; auto. split; [apply Nat.mod_upper_bound; lia|]. split; [lia|].
  rewrite (wrap (q_front d + 1)) by lia. split.
  - rewrite B. rewrite wrap by lia. ifs; rewrite ?wrap by lia; ifs; lia.
  - intros i Hi. destruct (Nat.eq_dec (i + 1) (q_size d)) as [E|E].
    + replace (_ mod _) with (q_front d).
      * rewrite nth_error_upd_eq by lia. f_equal. symmetry. apply nth_error_None. lia.
      * ifs; rewrite wrap by lia; ifs; lia.
    + replace (((if q_front d + 1 <? q_size d then q_front d + 1 else q_front d + 1 - q_size d) + i) mod q_size d)
        with ((q_front d + S i) mod q_size d).
      * rewrite nth_error_upd_neq. { rewrite C by lia. reflexivity. }
        rewrite wrap by lia. ifs; lia.
      * ifs; rewrite !wrap by lia; ifs; lia.
Qed.

Lemma move_range_spec (vs : list T) : forall nw old i j,
  (forall k v, nth_error vs k = Some v -> nth_error old (j + k) = Some (Some v)) ->
  (forall k, k < length vs -> nth_error nw (i + k) = Some None) ->
  exists nw' old', move_range (length vs) nw old i j = Ok (nw', old')
    /\ length nw' = length nw
    /\ (forall p, nth_error nw' p = if (i <=? p) && (p <? i + length vs) then Some (nth_error vs (p - i)) else nth_error nw p)
    /\ (forall p, p < j \/ j + length vs <= p -> nth_error old' p = nth_error old p)
    /\ (forall p, j <= p < j + length vs -> nth_error old' p = Some None).
Proof.
  induction vs as [|v vs IH]; intros nw old i j Ho Hn.
  - exists nw, old. cbn [length move_range]. repeat split; auto.
    + intros p. ifs; auto. lia.
    + intros p Hp. lia.
  - cbn [length move_range].
    assert (H0 := Ho 0 v eq_refl). rewrite Nat.add_0_r in H0. rewrite (read_ok _ _ _ H0); cbn [bind].
    assert (N0 := Hn 0 ltac:(simpl; lia)). rewrite Nat.add_0_r in N0. rewrite (construct_ok _ _ _ N0); cbn [bind].
    rewrite (destroy_ok _ _ _ H0); cbn [bind].
    assert (Li := nth_error_lt _ _ _ N0). assert (Lj := nth_error_lt _ _ _ H0).
    destruct (IH (upd nw i (Some v)) (upd old j None) (S i) (S j)) as (nw' & old' & E & Ln & P1 & P2 & P3).
    + intros k w Hk. rewrite nth_error_upd_neq by lia. replace (S j + k) with (j + S k) by lia. now apply Ho.
    + intros k Hk. rewrite nth_error_upd_neq by lia. replace (S i + k) with (i + S k) by lia. apply Hn. simpl; lia.
    + exists nw', old'. split; auto. rewrite length_upd in Ln. split; auto. split; [|split].
      * intros p. rewrite P1. destruct (Nat.eq_dec p i) as [->|Np].
        -- replace (S i <=? i) with false by lia. replace ((i <=? i) && (i <? i + S (length vs))) with true by lia.
           cbn [andb]. rewrite Nat.sub_diag, nth_error_upd_eq; auto.
        -- rewrite nth_error_upd_neq by lia. destruct (S i <=? p) eqn:E1.
           ++ replace (i <=? p) with true by lia. replace (S i + length vs) with (i + S (length vs)) by lia. cbn [andb].
              ifs; auto. replace (p - i) with (S (p - S i)) by lia. reflexivity.
           ++ replace (i <=? p) with false by lia. reflexivity.
      * intros p Hp. rewrite P2 by lia. apply nth_error_upd_neq. lia.
      * intros p Hp. destruct (Nat.eq_dec p j) as [->|Np].
        -- rewrite P2 by lia. now apply nth_error_upd_eq.
        -- apply P3. lia.
Qed.

Lemma nth_firstn (l : list T) n k : k < n -> nth_error (firstn n l) k = nth_error l k.
Proof. revert n k; induction l as [|x l IH]; intros [|n] [|k] H; simpl; auto; try lia. apply IH; lia. Qed.
Lemma nth_skipn (l : list T) n k : nth_error (skipn n l) k = nth_error l (n + k).
Proof. revert l; induction n as [|n IH]; intros l; auto. destruct l; simpl; auto. now destruct k. Qed.

(** push_expand on a full deque, argument outside it. *)
Lemma expand_rep d l v : Rep d l -> S (length l) = q_size d -> (N.of_nat (2 * q_size d) < 2 ^ 60)%N ->
  exists d', push_expand d (Outside v) = Ok d' /\ Rep d' (l ++ [v]) /\ q_size d' = 2 * q_size d.
Proof.
  intros R Hf Hmem. assert (H := R). destruct H as (L & S1 & Sz & F & Le & B & C).
  unfold push_expand. replace (q_size d * 2) with (2 * q_size d) by lia. rewrite (allocate_ok _ Hmem). cbn [bind].
  remember (if q_front d =? 0 then _ else _) as mv eqn:Emv.
  assert (exists nw old, mv = Ok (nw, old, length l) /\ length nw = 2 * q_size d
     /\ (forall p, p < 2 * q_size d -> nth_error nw p = Some (nth_error l p))) as (nw & old & Emv' & Ln & Pn).
  { destruct (q_front d =? 0) eqn:E0.
    - apply Nat.eqb_eq in E0. rewrite E0 in *. simpl in B.
      assert (Eb : q_back d = length l). { rewrite B. apply Nat.mod_small; lia. }
      destruct (move_range_spec l (repeat None (2 * q_size d)) (cells d) 0 0) as (nw & old & E & Ln & P1 & _).
      + intros k w Hk. assert (X := C k). simpl in X. rewrite Nat.mod_small in X by (apply nth_error_lt in Hk; lia).
        rewrite Nat.add_0_l, X, Hk; auto. apply nth_error_lt in Hk; lia.
      + intros k Hk. apply nth_error_repeat. lia.
      + rewrite Emv, Eb, E. cbn [bind]. exists nw, old. rewrite repeat_length in Ln. repeat split; auto.
        intros p Hp. rewrite P1. ifs; [now rewrite Nat.sub_0_r|]. rewrite nth_error_repeat by lia. f_equal. symmetry. apply nth_error_None. lia.
    - apply Nat.eqb_neq in E0. set (n1 := q_size d - q_front d).
      assert (Eb : q_back d = q_front d - 1). { rewrite B, wrap by lia. ifs; lia. }
      assert (L1 : length (firstn n1 l) = n1) by (rewrite firstn_length; lia).
      assert (L2 : length (skipn n1 l) = q_back d) by (rewrite skipn_length; lia).
      destruct (move_range_spec (firstn n1 l) (repeat None (2 * q_size d)) (cells d) 0 (q_front d)) as (nw1 & old1 & Em1 & Ln1 & P1 & P2 & P3).
      + intros k w Hk. assert (Hk' := nth_error_lt _ _ _ Hk). rewrite L1 in Hk'.
        rewrite nth_firstn in Hk by lia. rewrite <- (Rep_cell d l k w R Hk). f_equal. symmetry. apply Nat.mod_small. lia.
      + intros k Hk. apply nth_error_repeat. lia.
      + destruct (move_range_spec (skipn n1 l) nw1 old1 n1 0) as (nw2 & old2 & Em2 & Ln2 & Q1 & _).
        * intros k w Hk. assert (Hk' := nth_error_lt _ _ _ Hk). rewrite L2 in Hk'.
          rewrite nth_skipn in Hk. rewrite P2 by lia. rewrite <- (Rep_cell d l _ w R Hk). f_equal.
          rewrite wrap by lia. ifs; lia.
        * intros k Hk. rewrite P1. rewrite L1. ifs; [lia|]. apply nth_error_repeat. lia.
        * rewrite L1 in Em1. rewrite L2 in Em2. rewrite Emv. fold n1. rewrite Em1. cbn [bind]. rewrite Em2. cbn [bind].
          exists nw2, old2. rewrite repeat_length in Ln1. repeat split; auto; try lia.
          -- do 3 f_equal. lia.
          -- intros p Hp. rewrite Q1, P1, L1, L2. ifs; auto.
             ++ rewrite nth_skipn. do 2 f_equal. lia.
             ++ rewrite nth_firstn, Nat.sub_0_r by lia. reflexivity.
             ++ rewrite nth_error_repeat by lia. f_equal. symmetry. apply nth_error_None. lia. }
  clear Emv. subst mv. cbn [bind]. replace (length l =? q_size d - 1) with true by lia. cbn [invariant bind read_ref].
  rewrite construct_ok.
  2:{ rewrite Pn by lia. f_equal. apply nth_error_None. lia. }
  cbn [bind]. eexists; split; [reflexivity|]. split; [|cbn [q_size]; lia].
  unfold Rep; cbn [cells q_front q_back q_size]. rewrite length_upd, app_length. cbn [length].
  split; [lia|]. split; [lia|]. split; [exact Hmem|]. split; [lia|]. split; [lia|]. split; [rewrite Nat.mod_small; lia|].
  intros i Hi. rewrite Nat.add_0_l, Nat.mod_small by lia. destruct (Nat.eq_dec i (length l)) as [->|Ni].
  - rewrite nth_error_upd_eq by lia. now rewrite nth_error_app2, Nat.sub_diag by lia.
  - rewrite nth_error_upd_neq by lia. rewrite Pn by lia. f_equal. destruct (Nat.lt_ge_cases i (length l)).
    + now rewrite nth_error_app1.
    + rewrite !(proj2 (nth_error_None _ _)); auto; rewrite ?app_length; simpl; lia.
Qed.

Lemma push_room_rep d l r v : Rep d l -> S (length l) < q_size d -> read_ref (cells d) r = Ok v ->
  exists d', d_push_back d r = Ok d' /\ Rep d' (l ++ [v]) /\ q_size d' = q_size d.
Proof.
  intros R Hf Hr. assert (H := R). destruct H as (L & S1 & Sz & F & Le & B & C). unfold d_push_back.
  assert (Hn : (q_back d + 1) mod q_size d <> q_front d).
  { rewrite B. rewrite (wrap (q_front d + length l)) by lia. ifs; rewrite wrap by lia; ifs; lia. }
  apply Nat.eqb_neq in Hn. rewrite Hn. cbn [negb]. rewrite Hr; cbn [bind].
  assert (Cb : nth_error (cells d) (q_back d) = Some None).
  { rewrite B, C by lia. f_equal. apply nth_error_None; lia. }
  rewrite (construct_ok _ _ _ Cb). cbn [bind]. eexists; split; [reflexivity|]. split; [|reflexivity].
  unfold Rep; cbn [cells q_front q_back q_size]. rewrite length_upd, app_length. cbn [length].
  split; [lia|]. split; [lia|]. split; [exact Sz|]. split; [lia|]. split; [lia|]. split.
  - rewrite B. rewrite (wrap (q_front d + length l)) by lia. ifs; rewrite !wrap by lia; ifs; lia.
  - intros i Hi. destruct (Nat.eq_dec i (length l)) as [->|Ni].
    + rewrite <- B. rewrite nth_error_upd_eq by (eapply nth_error_lt; eauto). now rewrite nth_error_app2, Nat.sub_diag by lia.
    + rewrite nth_error_upd_neq. 2:{ intros E. rewrite B in E. apply pos_inj in E; lia. }
      rewrite C by lia. f_equal. destruct (Nat.lt_ge_cases i (length l)).
      * now rewrite nth_error_app1.
      * rewrite !(proj2 (nth_error_None _ _)); auto; rewrite ?app_length; simpl; lia.
Qed.

Lemma full_next d l r : Rep d l -> S (length l) = q_size d -> d_push_back d r = push_expand d r.
Proof. intros (L & S1 & Sz & F & Le & B & C) Hf. unfold d_push_back.
  assert (Hn : (q_back d + 1) mod q_size d = q_front d).
  { rewrite B. rewrite (wrap (q_front d + length l)) by lia. ifs; rewrite wrap by lia; ifs; lia. }
  apply Nat.eqb_eq in Hn. now rewrite Hn. Qed.

Definition RelD (d : deque T) (s : dstate T) : Prop := Rep d (ds_list s) /\ ds_cap s = d_capacity d.

Lemma push_rel d s v : RelD d s ->
  match push1 s v with
  | Ok s' => exists d', d_push_back d (Outside v) = Ok d' /\ RelD d' s'
  | Abort => d_push_back d (Outside v) = Abort
  | _ => False
  end.
Proof.
  intros (R & Hc). unfold push1. unfold d_capacity in Hc. assert (H := R). destruct H as (L & S1 & Sz & F & Le & B & C).
  destruct (length (ds_list s) =? ds_cap s) eqn:E.
  - unfold memory_for. destruct (N.ltb _ _) eqn:Em; cbn [bind].
    + destruct (expand_rep d (ds_list s) v R) as (d' & Ep & R' & Es); try lia.
      exists d'. rewrite (full_next d (ds_list s)) by (auto; lia). split; auto. split; cbn [ds_list ds_cap]; auto. unfold d_capacity. lia.
    + rewrite (full_next d (ds_list s)) by (auto; lia). unfold push_expand, allocate.
      replace (q_size d * 2) with (2 * (ds_cap s + 1)) by lia. now rewrite Em.
  - destruct (push_room_rep d (ds_list s) (Outside v) v R) as (d' & Ep & R' & Es); try lia; auto.
    exists d'. split; auto. split; cbn [ds_list ds_cap]; auto. unfold d_capacity. lia.
Qed.

Lemma push_all_rel vs : forall d s, RelD d s ->
  match push_many s vs with
  | Ok s' => exists d', d_push_all d vs = Ok d' /\ RelD d' s'
  | Abort => d_push_all d vs = Abort
  | _ => False
  end.
Proof. induction vs as [|v vs IH]; intros d s R; cbn [push_many d_push_all]; eauto.
  assert (X := push_rel d s v R). destruct (push1 s v) as [s'| | |]; cbn [bind]; try tauto.
  - destruct X as (d' & E & R'). rewrite E. cbn [bind]. now apply IH.
  - now rewrite X. Qed.

Lemma destroy_range_spec n : forall (m : mem) i, (forall k, k < n -> exists v, nth_error m (i + k) = Some (Some v)) ->
  exists m', destroy_range n m i = Ok m' /\ length m' = length m
   /\ (forall p, p < i \/ i + n <= p -> nth_error m' p = nth_error m p)
   /\ (forall p, i <= p < i + n -> nth_error m' p = Some None).
Proof. induction n as [|n IH]; intros m i H; cbn [destroy_range].
  - exists m. repeat split; auto. intros; lia.
  - destruct (H 0 ltac:(lia)) as (v & Hv). rewrite Nat.add_0_r in Hv. rewrite (destroy_ok _ _ _ Hv); cbn [bind].
    destruct (IH (upd m i None) (S i)) as (m' & E & Lm & P1 & P2).
    + intros k Hk. destruct (H (S k) ltac:(lia)) as (w & Hw). exists w. rewrite nth_error_upd_neq by lia. now replace (S i + k) with (i + S k) by lia.
    + exists m'. split; auto. rewrite length_upd in Lm. split; auto. split.
      * intros p Hp. rewrite P1 by lia. apply nth_error_upd_neq; lia.
      * intros p Hp. destruct (Nat.eq_dec p i) as [->|]; [|apply P2; lia]. rewrite P1 by lia.
        apply nth_error_upd_eq. eapply nth_error_lt; eauto. Qed.

Lemma clear_rep d l : Rep d l -> exists d', d_clear d = Ok d' /\ Rep d' [] /\ q_size d' = q_size d.
Proof.
  intros R. assert (H := R). destruct H as (L & S1 & Sz & F & Le & B & C). unfold d_clear.
  assert (exists m, length m = q_size d /\ (forall p, p < q_size d -> nth_error m p = Some None)
     /\ (if d_empty d then Ok (cells d) else
             let max := if q_front d <? q_back d then q_back d else q_size d in
             let! m1 := destroy_range (max - q_front d) (cells d) (q_front d) in
             if q_back d <? q_front d then destroy_range (q_back d) m1 0 else Ok m1) = Ok m) as (m & Lm & Pm & E).
  { rewrite (empty_rep d l R). destruct (length l =? 0) eqn:E0.
    - exists (cells d). repeat split; auto. intros p Hp. destruct (pos_onto (q_size d) (q_front d) p F Hp) as (i & Hi & <-).
      rewrite C by auto. f_equal. apply nth_error_None. lia.
    - assert (Live : forall i, i < length l -> exists v, nth_error (cells d) ((q_front d + i) mod q_size d) = Some (Some v)).
      { intros i Hi. rewrite C by lia. destruct (nth_error l i) eqn:En; eauto. apply nth_error_None in En. lia. }
      assert (Dead : forall i, length l <= i < q_size d -> nth_error (cells d) ((q_front d + i) mod q_size d) = Some None).
      { intros i Hi. rewrite C by lia. f_equal. apply nth_error_None. lia. }
      rewrite wrap in B by lia. destruct (q_front d + length l <? q_size d) eqn:Ew.
      + replace (q_front d <? q_back d) with true by lia. cbn zeta.
        destruct (destroy_range_spec (q_back d - q_front d) (cells d) (q_front d)) as (m & E & Lm & P1 & P2).
        { intros k Hk. destruct (Live k ltac:(lia)) as (v & Hv). rewrite Nat.mod_small in Hv by lia. eauto. }
        rewrite E; cbn [bind]. replace (q_back d <? q_front d) with false by lia. exists m. split; [lia|]. split; auto.
        intros p Hp. destruct (pos_onto (q_size d) (q_front d) p F Hp) as (i & Hi & Ei).
        rewrite wrap in Ei by lia. destruct (Nat.lt_ge_cases i (length l)).
        * rewrite P2; auto. rewrite <- Ei. ifs; lia.
        * rewrite P1. { rewrite <- Ei, <- wrap by lia. apply Dead; lia. } rewrite <- Ei. ifs; lia.
      + replace (q_front d <? q_back d) with false by lia. cbn zeta.
        destruct (destroy_range_spec (q_size d - q_front d) (cells d) (q_front d)) as (m & E & Lm & P1 & P2).
        { intros k Hk. destruct (Live k ltac:(lia)) as (v & Hv). rewrite Nat.mod_small in Hv by lia. eauto. }
        rewrite E; cbn [bind]. replace (q_back d <? q_front d) with true by lia.
        destruct (destroy_range_spec (q_back d) m 0) as (m2 & E2 & Lm2 & Q1 & Q2).
        { intros k Hk. rewrite P1 by lia. destruct (Live (q_size d - q_front d + k) ltac:(lia)) as (v & Hv).
          replace (q_front d + (q_size d - q_front d + k)) with (k + q_size d) in Hv by lia.
          rewrite wrap in Hv by lia. exists v. rewrite <- Hv. f_equal. ifs; lia. }
        exists m2. split; [lia|]. split; auto. intros p Hp.
        destruct (Nat.lt_ge_cases p (q_back d)). { apply Q2; lia. } rewrite Q1 by lia.
        destruct (Nat.lt_ge_cases p (q_front d)). 2:{ apply P2; lia. } rewrite P1 by lia.
        destruct (pos_onto (q_size d) (q_front d) p F Hp) as (i & Hi & <-). apply Dead.
        rewrite wrap in * by lia. revert H H0; ifs; lia. }
  cbv zeta in *. rewrite E; cbn [bind]. eexists; split; [reflexivity|]. split; [|reflexivity].
  unfold Rep; cbn [cells q_front q_back q_size length]. repeat split; auto; try lia.
  - rewrite Nat.mod_0_l; lia.
  - intros i Hi. rewrite Nat.add_0_l, Nat.mod_small, Pm by lia. now destruct i.
Qed.

(** ** Iterators *)
Section It.
Local Open Scope Z_scope.
Notation qs d := (Z.of_nat (q_size d)).
(** Position of logical index [i]. *)
Definition ipos (d : deque T) (i : nat) : Z := (Z.of_nat (q_front d) + Z.of_nat i) mod qs d.

Lemma qs_bounds d l : Rep d l -> 1 < qs d < 2 ^ 60 /\ 0 <= Z.of_nat (q_front d) < qs d /\ Z.of_nat (length l) < qs d.
Proof. intros (L & S1 & Sz & F & Le & B & C). lia. Qed.

Lemma ipos_nat d l i : Rep d l -> ipos d i = Z.of_nat ((q_front d + i) mod q_size d).
Proof. intros R. destruct (qs_bounds d l R). unfold ipos. rewrite Nat2Z.inj_mod, Nat2Z.inj_add. reflexivity. Qed.

Lemma ipos_range d l i : Rep d l -> 0 <= ipos d i < qs d.
Proof. intros R. destruct (qs_bounds d l R). apply Z.mod_pos_bound. lia. Qed.

Lemma begin_pos d l : Rep d l -> d_begin d = ipos d 0.
Proof. intros R. destruct (qs_bounds d l R) as (?&?&?). unfold d_begin, ipos. rewrite Z.add_0_r. symmetry. apply Z.mod_small. lia. Qed.

Lemma end_pos d l : Rep d l -> d_end d = ipos d (length l).
Proof. intros R. rewrite (ipos_nat d l) by auto. unfold d_end. f_equal. apply R. Qed.

Lemma deref_pos d l i v : Rep d l -> nth_error l i = Some v -> it_deref d (ipos d i) = Ok v.
Proof. intros R H. unfold it_deref. rewrite (ipos_nat d l), Nat2Z.id by auto. eapply at_rep; eauto. Qed.

(** Moving by a signed amount, without wrap below zero. *)
Lemma u64_small z : 0 <= z < w64 -> u64 z = z.
Proof. apply Z.mod_small. Qed.

Lemma move_gen d l i (k : Z) (j : nat) z : Rep d l -> z = ipos d i + k \/ z = ipos d i + qs d + k ->
  0 <= z < w64 -> Z.of_nat i + k = Z.of_nat j -> u64 z mod qs d = ipos d j.
Proof.
  intros R Hz Hr Hj. destruct (qs_bounds d l R) as (?&?&?). rewrite u64_small by auto.
  unfold ipos in *. rewrite <- Hj. rewrite Z.add_assoc.
  destruct Hz as [-> | ->].
  - rewrite Zplus_mod_idemp_l. f_equal.
  - replace ((Z.of_nat (q_front d) + Z.of_nat i) mod qs d + qs d + k) with ((Z.of_nat (q_front d) + Z.of_nat i) mod qs d + k + 1 * qs d) by ring.
    rewrite Z.mod_add by lia. rewrite Zplus_mod_idemp_l. f_equal.
Qed.

Lemma inc_pos d l i : Rep d l -> it_inc d (ipos d i) = ipos d (S i).
Proof. intros R. destruct (qs_bounds d l R) as (?&?&?). assert (X := ipos_range d l i R). unfold it_inc.
  apply (move_gen d l i 1); auto; unfold w64; lia. Qed.
Lemma dec_pos d l i : Rep d l -> it_dec d (ipos d (S i)) = ipos d i.
Proof. intros R. destruct (qs_bounds d l R) as (?&?&?). assert (X := ipos_range d l (S i) R). unfold it_dec.
  apply (move_gen d l (S i) (-1)); auto; unfold w64; lia. Qed.
Lemma minus_pos d l i j : Rep d l -> (i <= length l)%nat -> (j <= length l)%nat ->
  it_minus d (ipos d i) (Z.of_nat i - Z.of_nat j) = ipos d j.
Proof. intros R Hi Hj. destruct (qs_bounds d l R) as (?&?&?). assert (X := ipos_range d l i R). unfold it_minus.
  apply (move_gen d l i (Z.of_nat j - Z.of_nat i)); auto; unfold w64; lia. Qed.

(** operator+ with any offset keeping the machine sum non-negative, or any
    capacity dividing 2^64. *)
Lemma plus_pos d l i j : Rep d l -> (i <= length l)%nat -> (j <= length l)%nat ->
  0 <= ipos d i + (Z.of_nat j - Z.of_nat i) \/ w64 mod qs d = 0 ->
  it_plus d (ipos d i) (Z.of_nat j - Z.of_nat i) = ipos d j.
Proof.
  intros R Hi Hj Hc. destruct (qs_bounds d l R) as (?&?&?). assert (X := ipos_range d l i R). unfold it_plus.
  destruct (Z_le_gt_dec 0 (ipos d i + (Z.of_nat j - Z.of_nat i))) as [Hp|Hn].
  - apply (move_gen d l i (Z.of_nat j - Z.of_nat i)); auto; unfold w64; lia.
  - destruct Hc as [Hc|Hc]; [lia|]. set (z := ipos d i + _) in *. unfold u64.
    apply Z.mod_divide in Hc; [|lia]. destruct Hc as (c & Hc).
    assert (Ez : z mod w64 = z + w64). { symmetry. apply Zmod_unique with (-1); unfold w64 in *; lia. }
    rewrite Ez. rewrite Hc, Z.mod_add by lia. unfold z, ipos. rewrite Zplus_mod_idemp_l. f_equal. lia.
Qed.

Lemma logical_pos d l i : Rep d l -> (i <= length l)%nat -> logicalOffset d (ipos d i) = Z.of_nat i.
Proof.
  intros R Hi. destruct (qs_bounds d l R) as (?&?&?). assert (X := ipos_range d l i R). unfold logicalOffset.
  rewrite u64_small by (unfold w64; lia). unfold ipos.
  replace ((Z.of_nat (q_front d) + Z.of_nat i) mod qs d - Z.of_nat (q_front d) + qs d)
    with ((Z.of_nat (q_front d) + Z.of_nat i) mod qs d + (- Z.of_nat (q_front d)) + 1 * qs d) by ring.
  rewrite Z.mod_add by lia. rewrite Zplus_mod_idemp_l.
  replace (Z.of_nat (q_front d) + Z.of_nat i + - Z.of_nat (q_front d)) with (Z.of_nat i) by ring. apply Z.mod_small. lia.
Qed.

Lemma ipos_inj d l i j : Rep d l -> (i <= length l)%nat -> (j <= length l)%nat -> ipos d i = ipos d j -> i = j.
Proof. intros R Hi Hj E. assert (A := logical_pos d l i R Hi). assert (B := logical_pos d l j R Hj). rewrite E in A. lia. Qed.

Lemma loop_pos d l : Rep d l -> forall n i f, (n + i = length l)%nat -> (n <= f)%nat -> it_loop f d (ipos d i) = Ok (skipn i l).
Proof.
  intros R. induction n as [|n IH]; intros i f Hn Hf.
  - assert (i = length l) by lia. subst i. rewrite skipn_all. destruct f; cbn [it_loop]; unfold it_eq; rewrite (end_pos d l R), Z.eqb_refl; reflexivity.
  - destruct f as [|f]; [lia|]. cbn [it_loop]. unfold it_eq. rewrite (end_pos d l R).
    destruct (Z.eqb_spec (ipos d i) (ipos d (length l))) as [E|E]. { eapply ipos_inj in E; eauto; lia. }
    destruct (nth_error l i) as [v|] eqn:En. 2:{ apply nth_error_None in En. lia. }
    rewrite (deref_pos d l i v R En). cbn [bind]. rewrite (inc_pos d l i R). rewrite (IH (S i)) by lia. cbn [bind].
    f_equal. clear -En. revert i En. induction l as [|a l IHl]; intros [|i] En; simpl in *; try discriminate; try congruence.
    apply IHl; auto.
Qed.
End It.

Lemma step_rel d s o : RelD d s ->
  match dspec s o with
  | Ok (s', out) => exists d', d_step d o = Ok (d', out) /\ RelD d' s'
  | Abort => d_step d o = Abort
  | UB => True
  | Fuel => False
  end.
Proof.
  intros (R & Hc). assert (H := R). destruct H as (L & S1 & Sz & F & Le & B & C). assert (HR : RelD d s) by (split; auto).
  destruct o as [v|vs| | | |pos|pos v| | | |n| |]; cbn [dspec d_step].
  - assert (X := push_rel d s v HR). destruct (push1 s v) as [s'| | |]; cbn [bind]; try tauto.
    + destruct X as (d' & E & R'). rewrite E. cbn [bind]. eauto.
    + now rewrite X.
  - assert (X := push_all_rel vs d s HR). destruct (push_many s vs) as [s'| | |]; cbn [bind]; try tauto.
    + destruct X as (d' & E & R'). rewrite E. cbn [bind]. eauto.
    + now rewrite X.
  - destruct (ds_list s) as [|x r] eqn:El; auto. destruct (pop_rep d x r R) as (d' & E & R' & Es). rewrite E; cbn [bind].
    eexists; split; [reflexivity|]. split; auto. cbn [ds_cap]. unfold d_capacity in *. lia.
  - destruct (ds_list s) as [|x r] eqn:El; auto. rewrite (front_rep d x r R). cbn [bind]. eauto.
  - destruct (ds_list s) as [|x r] eqn:El; auto. rewrite (back_rep d x r R). cbn [bind]. eauto.
  - destruct (nth_error (ds_list s) pos) as [x|] eqn:En; auto. rewrite (at_rep d _ _ _ R En). cbn [bind]. eauto.
  - destruct (pos <? length (ds_list s)) eqn:Ep; auto. destruct (set_rep d (ds_list s) pos v R) as (d' & E & R' & Es); [lia|].
    rewrite E; cbn [bind]. eexists; split; [reflexivity|]. split; auto. cbn [ds_cap]. unfold d_capacity in *. lia.
  - rewrite (size_rep d _ R). eauto.
  - rewrite (empty_rep d _ R). eauto.
  - rewrite Hc. eauto.
  - unfold d_reserve. rewrite (empty_rep d _ R). destruct (length (ds_list s) =? 0); cbn [invariant bind]; auto.
    destruct (0 <? n) eqn:En; cbn [invariant bind]; auto. unfold memory_for, allocate. destruct (N.ltb _ _) eqn:Em; cbn [bind]; auto.
    eexists; split; [reflexivity|]. split; cbn [ds_list ds_cap].
    + unfold Rep; cbn [cells q_front q_back q_size length]. rewrite repeat_length. repeat split; try lia.
      * rewrite Nat.mod_0_l; lia.
      * intros i Hi. rewrite Nat.add_0_l, Nat.mod_small by lia. rewrite nth_error_repeat by lia. now destruct i.
    + unfold d_capacity; simpl; lia.
  - destruct (clear_rep d _ R) as (d' & E & R' & Es). rewrite E; cbn [bind]. eexists; split; [reflexivity|]. split; auto.
    cbn [ds_cap]. unfold d_capacity in *. lia.
  - rewrite (begin_pos d _ R). rewrite (loop_pos d _ R (length (ds_list s)) 0) by lia. cbn [bind]. rewrite skipn_O. eauto.
Qed.

Lemma run_rel ops : forall d s, RelD d s -> conforms (run_ops d_step d ops) (run_ops dspec s ops).
Proof.
  induction ops as [|o ops IH]; intros d s R; cbn [run_ops]; [constructor|].
  assert (X := step_rel d s o R). destruct (dspec s o) as [[s' out]| | |].
  - destruct X as (d' & E & R'). rewrite E. constructor. now apply IH.
  - rewrite X. constructor.
  - constructor.
  - tauto.
Qed.

Lemma exec_rel ops : forall d s s', RelD d s -> exec_ops dspec s ops = Ok s' -> exists d', exec_ops d_step d ops = Ok d' /\ RelD d' s'.
Proof.
  induction ops as [|o ops IH]; intros d s s' R; cbn [exec_ops].
  - inversion 1; subst. eauto.
  - assert (X := step_rel d s o R). destruct (dspec s o) as [[s1 out]| | |]; cbn [bind]; try discriminate.
    destruct X as (d' & E & R'). rewrite E; cbn [bind]. now apply IH.
Qed.

Lemma new_rel n d : deque_new n = Ok d -> RelD d (mk_ds [] (n - 1)).
Proof. intros H. destruct (new_rep n d H). split; auto. Qed.

(** Client view of positions: begin() advanced [i] times. *)
Fixpoint advance (d : deque T) (i : nat) : Z := match i with O => d_begin d | S i' => it_inc d (advance d i') end.
Lemma advance_pos d l i : Rep d l -> advance d i = ipos d i.
Proof. intros R. induction i as [|i IH]; cbn [advance]; [eapply begin_pos; eauto|]. rewrite IH. eapply inc_pos; eauto. Qed.
End DP.
