(** The loops of StatsQuantile that walk weighted sorted buffers: the priority
    queue walk of collapse() and getQuantileByIndex, and the binary search. *)
From Coq Require Import List Arith ZArith NArith Lia Bool Permutation Sorted ZifyBool ZifyNat ZifyN.
From Verif Require Import Common CommonFacts ListFacts PriorityQueue_Model PriorityQueue_Spec PriorityQueue_Facts PriorityQueue_Proofs Quantile_Model Quantile_Facts.
Import ListNotations.
Local Open Scope nat_scope.

Lemma pc_total a b : pairCmp a b = true \/ pairCmp b a = true.
Proof. unfold pairCmp. lia. Qed.
Lemma pc_trans a b c : pairCmp a b = true -> pairCmp b c = true -> pairCmp a c = true.
Proof. unfold pairCmp. lia. Qed.
Lemma pc_id a b : pairCmp a b = true -> pairCmp a b = true.
Proof. auto. Qed.
Lemma pc_ge a b : pairCmp a b = false -> pairCmp b a = true.
Proof. unfold pairCmp. lia. Qed.

Notation RQ := (RepQ pairCmp pair0).

(** Buffers still to be walked: number, weight, remaining sorted values. *)
Definition walk := list (nat * nat * list Z).
Definition wid (e : nat * nat * list Z) : nat := fst (fst e).
Definition wwt (e : nat * nat * list Z) : nat := snd (fst e).
Definition wl (e : nat * nat * list Z) : list Z := snd e.
Definition heads (R : walk) : list (Z * nat) := map (fun e => (hd 0%Z (wl e), wid e)) R.
Definition mass (R : walk) : list Z := flat_map (fun e => stretch (wwt e) (wl e)) R.
Definition elems (R : walk) : nat := fold_right (fun e n => length (wl e) + n) 0 R.

(** An entry of the walk agrees with the arrays. *)
Definition entry_ok (s : quantile) (cp : list nat) (lim : nat -> nat) (e : nat * nat * list Z) : Prop :=
  wl e <> [] /\ StronglySorted Z.le (wl e)
  /\ nth_error (buffer_weight s) (wid e) = Some (Z.of_nat (wwt e)) /\ 0 < wwt e
  /\ exists vs c p, nth_error (all_buffers s) (wid e) = Some (Some c)
       /\ firstn (lim (wid e)) c = map Some vs /\ length vs = lim (wid e)
       /\ nth_error cp (wid e) = Some p /\ skipn p vs = wl e.
Definition walk_ok s cp lim (R : walk) : Prop := NoDup (map wid R) /\ Forall (entry_ok s cp lim) R.

Lemma heads_perm R R' : Permutation R R' -> Permutation (heads R) (heads R').
Proof. apply Permutation_map. Qed.
Lemma mass_perm R R' : Permutation R R' -> Permutation (mass R) (mass R').
Proof. apply Permutation_flat_map. Qed.
Lemma elems_perm R R' : Permutation R R' -> elems R = elems R'.
Proof. induction 1; simpl; lia. Qed.
Lemma elems_cons e R : elems (e :: R) = length (wl e) + elems R. Proof. reflexivity. Qed.
Lemma mass_cons e R : mass (e :: R) = stretch (wwt e) (wl e) ++ mass R. Proof. reflexivity. Qed.

Lemma get_nth {A} (l : list A) i a : nth_error l i = Some a -> get l i = Ok a.
Proof. unfold get. now intros ->. Qed.

(** the minimum head is below everything that is left *)
Lemma min_head R e v l : In e R -> wl e = v :: l -> Forall (fun e => StronglySorted Z.le (wl e)) R -> Forall (fun e => wl e <> []) R ->
  (forall y, In y (heads R) -> pairCmp y (v, wid e) = true) -> forall x, In x (mass R) -> (v <= x)%Z.
Proof.
  intros He E S N M x Hx. unfold mass in Hx. apply in_flat_map in Hx. destruct Hx as (e2 & H2 & Hx). apply stretch_in in Hx.
  rewrite Forall_forall in S, N. specialize (S e2 H2). specialize (N e2 H2).
  destruct (wl e2) as [|y l2] eqn:E2; [congruence|].
  assert (Hy : (v <= y)%Z). { specialize (M (y, wid e2)). unfold pairCmp in M. simpl in M.
    assert (In (y, wid e2) (heads R)). { unfold heads. apply in_map_iff. exists e2. rewrite E2. auto. }
    specialize (M H). lia. }
  inversion S as [|? ? S1 S2]; subst. rewrite Forall_forall in S2. destruct Hx as [<-|Hx]; auto. specialize (S2 x Hx). lia.
Qed.

Lemma isort_min w v l : (forall x, In x l -> (v <= x)%Z) -> isort (repeat v w ++ l) = repeat v w ++ isort l.
Proof.
  intros H. apply isort_unique.
  - apply Permutation_app_head. symmetry. apply isort_perm.
  - apply ssorted_app; [apply ssorted_repeat|apply isort_sorted|]. intros x y Hx Hy. apply repeat_spec in Hx. subst x.
    apply H. now apply (Permutation_in _ (isort_perm l)).
Qed.

(** One step of the walk, common to both loops. *)
Section Step.
Variables (s : quantile) (lim : nat -> nat).

Definition next_entry (e : nat * nat * list Z) : walk := match wl e with _ :: (_ :: _) as l => [(wid e, wwt e, tl (wl e))] | _ => [] end.

Lemma walk_step (R : walk) cp pq : walk_ok s cp lim R -> RQ pq (heads R) -> R <> [] ->
  exists e R' v l p, Permutation R (e :: R') /\ wl e = v :: l /\ pq_top pq = Ok (v, wid e)
    /\ get cp (wid e) = Ok p /\ S p + length l = lim (wid e) /\ wid e < length cp
    /\ get (buffer_weight s) (wid e) = Ok (Z.of_nat (wwt e))
    /\ isort (mass R) = repeat v (wwt e) ++ isort (stretch (wwt e) l ++ mass R')
    /\ elems R = S (length l) + elems R'
    /\ (forall cp', cp' = upd cp (wid e) (S p) ->
         match l with
         | [] => exists pq', pq_pop pairCmp pq = Ok pq' /\ RQ pq' (heads R') /\ walk_ok s cp' lim R'
         | x :: _ => collapseVal s cp' (wid e) = Ok x /\
             exists pq', pq_replaceTop pairCmp pq (x, wid e) = Ok pq' /\ RQ pq' (heads ((wid e, wwt e, l) :: R'))
                /\ walk_ok s cp' lim ((wid e, wwt e, l) :: R')
         end).
Proof.
  intros [ND FO] RP NE.
  assert (NH : heads R <> []) by (destruct R; simpl; congruence).
  destruct (top_rep pairCmp pairCmp pair0 pc_total pc_trans pc_id pc_ge pq (heads R) RP NH) as (x & Et & (Hin & Hmax) & Ex).
  unfold heads in Hin. apply in_map_iff in Hin. destruct Hin as (e & <- & He).
  destruct (in_split e R He) as (R1 & R2 & ->). assert (P : Permutation (R1 ++ e :: R2) (e :: R1 ++ R2)) by (symmetry; apply Permutation_middle).
  assert (Oe : entry_ok s cp lim e) by (rewrite Forall_forall in FO; apply FO, He).
  destruct Oe as (Ne & Se & We & Wp & vs & c & p & Eb & Ev & Lv & Ep & Es).
  destruct (wl e) as [|v l] eqn:El; [congruence|]. cbn [hd] in *.
  assert (FO' : Forall (entry_ok s cp lim) (e :: R1 ++ R2)) by (apply (Permutation_Forall P), FO).
  assert (ND' : NoDup (map wid (e :: R1 ++ R2))). { apply (Permutation_NoDup (l := map wid (R1 ++ e :: R2))); auto. now apply Permutation_map. }
  inversion FO' as [|? ? _ FR]; subst. simpl in ND'. inversion ND' as [|? ? Nin NDR]; subst.
  exists e, (R1 ++ R2), v, l, p. split; [exact P|]. split; [exact El|]. split; [exact Et|]. split; [now apply get_nth|].
  assert (Lp : S p + length l = lim (wid e)). { pose proof (f_equal (@length Z) Es) as L. rewrite skipn_length in L. simpl in L.
    assert (p < length vs) by lia. lia. }
  split; [exact Lp|]. split; [now apply nth_error_lt in Ep|]. split; [now apply get_nth|]. split.
  { rewrite <- (isort_min (wwt e) v (stretch (wwt e) l ++ mass (R1 ++ R2))).
    - apply isort_unique; [|apply isort_sorted]. rewrite isort_perm. rewrite (mass_perm _ _ P), mass_cons, El, stretch_cons, app_assoc. reflexivity.
    - intros y Hy. apply (min_head (R1 ++ e :: R2) e v l); auto.
      + eapply Forall_impl; [|exact FO]. intros a Ha; apply Ha.
      + eapply Forall_impl; [|exact FO]. intros a Ha; apply Ha.
      + apply (Permutation_in y (Permutation_sym (mass_perm _ _ P))). rewrite mass_cons, El, stretch_cons.
        rewrite !in_app_iff in *. tauto. }
  split. { rewrite (elems_perm _ _ P), elems_cons, El. reflexivity. }
  intros cp' ->.
  assert (FR' : Forall (entry_ok s (upd cp (wid e) (S p)) lim) (R1 ++ R2)).
  { rewrite Forall_forall in *. intros a Ha. destruct (FR a Ha) as (A1 & A2 & A3 & A4 & vs2 & c2 & p2 & B1 & B2 & B3 & B4 & B5).
    split; auto. split; auto. split; auto. split; auto. exists vs2, c2, p2. split; auto. split; auto. split; auto. split; auto.
    rewrite nth_error_upd_neq; auto. intros E. apply Nin. rewrite E. now apply in_map. }
  assert (Hp0 : (v, wid e) = nth 0 (PriorityQueue_Model.pq pq) pair0) by exact Ex.
  assert (PH : Permutation (heads (R1 ++ e :: R2)) ((v, wid e) :: heads (R1 ++ R2))).
  { rewrite (heads_perm _ _ P). simpl. rewrite El. reflexivity. }
  destruct l as [|x l].
  - destruct (pop_rep pairCmp pairCmp pair0 pc_total pc_trans pc_id pc_ge pq _ RP NH) as (pq' & l' & E1 & R1' & P1 & _).
    rewrite <- Hp0 in P1. exists pq'. split; [exact E1|]. split; [|split; auto].
    assert (PL : Permutation l' (heads (R1 ++ R2))). { apply Permutation_cons_inv with (v, wid e). now rewrite <- P1, <- PH. }
    destruct R1' as (Q1 & Q2 & Q3 & Q4 & Q5). repeat (split; [assumption|]). now rewrite Q5.
  - split.
    + unfold collapseVal, buffer_of. rewrite (get_nth _ _ _ Eb). cbn [bind]. rewrite (get_nth (upd cp _ _) _ (S p)) by (apply nth_error_upd_eq; now apply nth_error_lt in Ep).
      cbn [bind]. assert (Ec : nth_error c (S p) = Some (Some x)).
      { assert (L1 : S p < lim (wid e)) by (simpl in Lp; lia).
        rewrite <- (nth_error_firstn_lt c (lim (wid e))) by exact L1. rewrite Ev, nth_error_map.
        assert (nth_error vs (S p) = Some x). { replace (S p) with (p + 1) by lia. rewrite <- nth_error_skipn, Es. reflexivity. }
        now rewrite H. }
      now rewrite (get_nth _ _ _ Ec).
    + destruct (replace_rep pairCmp pairCmp pair0 pc_total pc_trans pc_id pc_ge pq _ (x, wid e) RP NH) as (pq' & l' & E1 & R1' & P1 & _).
      rewrite <- Hp0 in P1. exists pq'. split; [exact E1|].
      assert (PL : Permutation l' (heads (R1 ++ R2))). { apply Permutation_cons_inv with (v, wid e). now rewrite <- P1, <- PH. }
      split. { destruct R1' as (Q1 & Q2 & Q3 & Q4 & Q5). repeat (split; [assumption|]). rewrite Q5. simpl. now constructor. }
      split; [simpl; now constructor|]. constructor; auto. split; [simpl; congruence|]. split; [now inversion Se|].
      split; [exact We|]. split; [exact Wp|]. exists vs, c, (S p). split; auto. split; auto. split; auto. split.
      * cbn [wid fst]. apply nth_error_upd_eq. now apply nth_error_lt in Ep.
      * cbn [wl snd]. replace (S p) with (1 + p) by lia. rewrite <- skipn_skipn, Es. reflexivity.
Qed.
End Step.

(** ** The walk of collapse() *)
Lemma collapse_loop_spec (s : quantile) (W : nat) lim : (forall i, lim i = buffer_size s) -> forall fuel R pq cp cqo nqo out o,
  walk_ok s cp lim R -> RQ pq (heads R) -> elems R <= fuel ->
  (nqo - cqo = Z.of_nat o)%Z -> (forall e, In e R -> wwt e <= W) -> length out <= buffer_size s ->
  o + (buffer_size s - length out - 1) * W < length (mass R) \/ length out = buffer_size s ->
  exists cp', collapse_loop fuel s (Z.of_nat W) pq cp cqo nqo out
    = Ok (cp', nqo + Z.of_nat ((buffer_size s - length out) * W), out ++ pick (isort (mass R)) W o (buffer_size s - length out))%Z
    /\ length cp' = length cp.
Proof.
  intros Hlim. induction fuel as [|f IH]; intros R pq cp cqo nqo out o WO RP Hf Ho Hw Lo Ht.
  - assert (length out = buffer_size s). { destruct Ht as [Ht|]; auto. destruct R as [|e R]; [now apply Nat.nlt_0_r in Ht|].
      destruct WO as [_ FO]. inversion FO as [|? ? (Ne & _) _]; subst. simpl in Hf. destruct (wl e); [congruence|simpl in Hf; lia]. }
    exists cp. cbn [collapse_loop]. replace (length out <? buffer_size s) with false by lia.
    replace (buffer_size s - length out) with 0 by lia. simpl. rewrite app_nil_r, Z.add_0_r. auto.
  - cbn [collapse_loop]. destruct (length out <? buffer_size s) eqn:Elt.
    2: { replace (buffer_size s - length out) with 0 by lia. exists cp. simpl. rewrite app_nil_r, Z.add_0_r. auto. }
    destruct Ht as [Ht|Ht]; [|lia].
    assert (NE : R <> []) by (intros ->; now apply Nat.nlt_0_r in Ht).
    destruct (walk_step s lim R cp pq WO RP NE) as (e & R' & v & l & p & P & El & Et & Ep & Lp & Lc & Ew & Ei & Ee & Next).
    rewrite Et. cbn [bind]. rewrite Ep. cbn [bind]. rewrite put_ok by exact Lc. cbn [bind]. rewrite Ew. cbn [bind].
    specialize (Next _ eq_refl). rewrite Hlim in Lp.
    assert (We : wwt e <= W) by (apply Hw; apply (Permutation_in e (Permutation_sym P)); now left).
    assert (HwR : forall a, In a R' -> wwt a <= W) by (intros a Ha; apply Hw; apply (Permutation_in a (Permutation_sym P)); now right).
    assert (Lm : length (mass R) = wwt e + length (stretch (wwt e) l ++ mass R')).
    { pose proof (f_equal (@length Z) Ei) as L. rewrite app_length, repeat_length, !isort_length in L. exact L. }
    (* the state after this step *)
    set (R2 := match l with [] => R' | _ => (wid e, wwt e, l) :: R' end).
    assert (M2 : mass R2 = stretch (wwt e) l ++ mass R') by (subst R2; destruct l; reflexivity).
    assert (E2 : elems R2 = length l + elems R') by (subst R2; destruct l; reflexivity).
    assert (Hw2 : forall a, In a R2 -> wwt a <= W). { subst R2; destruct l as [|z l]; auto. intros a [<-|Ha]; auto. }
    assert (Go : forall cqo' nqo' out' o', (nqo' - cqo' = Z.of_nat o')%Z -> length out' <= buffer_size s ->
        o' + (buffer_size s - length out' - 1) * W < length (mass R2) \/ length out' = buffer_size s ->
        exists cp', (let! pq' := (if S p <? buffer_size s then let! x := collapseVal s (upd cp (wid e) (S p)) (wid e) in pq_replaceTop pairCmp pq (x, wid e) else pq_pop pairCmp pq) in
            collapse_loop f s (Z.of_nat W) pq' (upd cp (wid e) (S p)) cqo' nqo' out')
          = Ok (cp', nqo' + Z.of_nat ((buffer_size s - length out') * W), out' ++ pick (isort (mass R2)) W o' (buffer_size s - length out'))%Z
          /\ length cp' = length cp).
    { intros cqo' nqo' out' o' Ho' Lo' Ht'. subst R2. destruct l as [|x l].
      - destruct Next as (pq' & En & Rn & Wn). replace (S p <? buffer_size s) with false by (simpl in Lp; lia). rewrite En. cbn [bind].
        destruct (IH R' pq' (upd cp (wid e) (S p)) cqo' nqo' out' o') as (cp' & E' & L'); auto; [lia|].
        exists cp'. split; auto. now rewrite L', length_upd.
      - destruct Next as (Ev & pq' & En & Rn & Wn). replace (S p <? buffer_size s) with true by (simpl in Lp; lia). rewrite Ev. cbn [bind]. rewrite En. cbn [bind].
        destruct (IH ((wid e, wwt e, x :: l) :: R') pq' (upd cp (wid e) (S p)) cqo' nqo' out' o') as (cp' & E' & L'); auto; [lia|].
        exists cp'. split; auto. now rewrite L', length_upd. }
    rewrite <- M2 in Ei, Lm. rewrite Ei.
    destruct (buffer_size s - length out) as [|n] eqn:En; [lia|].
    destruct (Z.ltb nqo (cqo + Z.of_nat (wwt e))) eqn:Eq.
    + (* this entry covers the wanted position *)
      destruct (Go (cqo + Z.of_nat (wwt e))%Z (nqo + Z.of_nat W)%Z (out ++ [v]) (o + W - wwt e)) as (cp' & E' & L').
      * lia.
      * rewrite app_length. simpl. lia.
      * rewrite app_length. simpl. replace (buffer_size s - (length out + 1)) with n by lia.
        destruct n as [|n]; [right; lia|left]. simpl in *. lia.
      * exists cp'. split; auto. rewrite E'. rewrite app_length. cbn [length]. replace (buffer_size s - (length out + 1)) with n by lia.
        rewrite <- app_assoc. cbn [app pick]. rewrite app_nth1 by (rewrite repeat_length; lia).
        rewrite pick_shift by (rewrite repeat_length; lia). rewrite repeat_length.
        replace (nth o (repeat v (wwt e)) 0%Z) with v.
        2: { symmetry. assert (I : In (nth o (repeat v (wwt e)) 0%Z) (repeat v (wwt e))) by (apply nth_In; rewrite repeat_length; lia). now apply repeat_spec in I. }
        f_equal. f_equal. f_equal. lia.
    + destruct (Go (cqo + Z.of_nat (wwt e))%Z nqo out (o - wwt e)) as (cp' & E' & L').
      * lia.
      * lia.
      * left. rewrite En. lia.
      * exists cp'. split; auto. rewrite E'. rewrite En. rewrite pick_shift by (rewrite repeat_length; lia). rewrite repeat_length. reflexivity.
Qed.

(** ** The walk of getQuantileByIndex *)
Lemma by_index_spec (s : quantile) lim : (forall i, lim i = if Z.ltb (Z.of_nat i) (cur_buffer s) then buffer_size s else cur_buffer_pos s) ->
  forall fuel R pq cp target cur o,
  walk_ok s cp lim R -> RQ pq (heads R) -> elems R <= fuel -> (target - cur = Z.of_nat o)%Z -> o < length (mass R) ->
  by_index_loop fuel s target cur pq cp = Ok (Some (nth o (isort (mass R)) 0%Z)).
Proof.
  intros Hlim. induction fuel as [|f IH]; intros R pq cp target cur o WO RP Hf Ho Lt.
  - exfalso. destruct R as [|e R]; [simpl in Lt; lia|].
    destruct WO as [_ FO]. inversion FO as [|? ? (Ne & _) _]; subst. simpl in Hf. destruct (wl e); [congruence|simpl in Hf; lia].
  - assert (NE : R <> []) by (intros ->; simpl in Lt; lia).
    cbn [by_index_loop]. assert (Ne : pq_empty pq = false).
    { unfold pq_empty. rewrite <- (RepQ_len pairCmp pairCmp pair0 pc_total pc_trans pc_id pc_ge pq _ RP). destruct R; simpl; congruence. }
    rewrite Ne. destruct (walk_step s lim R cp pq WO RP NE) as (e & R' & v & l & p & P & El & Et & Ep & Lp & Lc & Ew & Ei & Ee & Next).
    rewrite Et. cbn [bind]. rewrite Ep. cbn [bind]. rewrite put_ok by exact Lc. cbn [bind]. rewrite Ew. cbn [bind].
    specialize (Next _ eq_refl). rewrite Ei. cbv zeta.
    assert (Lm : length (mass R) = wwt e + length (stretch (wwt e) l ++ mass R')).
    { pose proof (f_equal (@length Z) Ei) as L. rewrite app_length, repeat_length, !isort_length in L. exact L. }
    destruct (Z.ltb target (cur + Z.of_nat (wwt e))) eqn:Eq.
    + rewrite app_nth1 by (rewrite repeat_length; lia). do 2 f_equal. symmetry.
      assert (I : In (nth o (repeat v (wwt e)) 0%Z) (repeat v (wwt e))) by (apply nth_In; rewrite repeat_length; lia). now apply repeat_spec in I.
    + rewrite app_nth2 by (rewrite repeat_length; lia). rewrite repeat_length.
      rewrite <- (Hlim (wid e)).
      destruct l as [|x l].
      * destruct Next as (pq' & En & Rn & Wn). replace (S p <? lim (wid e)) with false by (simpl in Lp; lia). rewrite En. cbn [bind].
        apply (IH R'); auto; try (simpl in *; lia).
      * destruct Next as (Ev & pq' & En & Rn & Wn). replace (S p <? lim (wid e)) with true by (simpl in Lp; lia). rewrite Ev. cbn [bind]. rewrite En. cbn [bind].
        apply (IH ((wid e, wwt e, x :: l) :: R')); auto.
        -- rewrite elems_cons. cbn [wl snd]. simpl in *. lia.
        -- lia.
        -- rewrite mass_cons. cbn [wwt wl fst snd]. lia.
Qed.
