(** Proofs about references into a PriorityQueue. *)
From Coq Require Import List Arith NArith ZArith Lia Bool Permutation.
From Coq Require Import ZifyBool ZifyNat ZifyN.
From Verif Require Import Common CommonFacts PriorityQueue_Spec PriorityQueue_Model PriorityQueue_Proofs PQRef_Model.
Import ListNotations.
Ltac Zify.zify_post_hook ::= Z.div_mod_to_equations.

Section P.
Context {T : Type}.
Variable le li : T -> T -> bool.
Variable dflt : T.
Hypothesis le_total : forall a b, le a b = true \/ le b a = true.
Hypothesis le_trans : forall a b c, le a b = true -> le b c = true -> le a c = true.
Hypothesis li_le : forall a b, li a b = true -> le a b = true.
Hypothesis li_ge : forall a b, li a b = false -> le b a = true.
Notation g a i := (nth i a dflt).

(** The slot [ref] is not overwritten while sifting up. *)
Lemma push_ref_loop_away v ref : forall fuel a e, ref < length a -> e < length a -> g a ref = v -> e <= fuel ->
  (ref = 0 \/ (ref <> e /\ li v v = true)) ->
  push_ref_loop li fuel a ref e = push_loop li fuel a v e
  /\ forall a' e', push_loop li fuel a v e = Ok (a', e') -> ref < length a' /\ g a' ref = v.
Proof.
  induction fuel as [|f IH]; intros a e Hr He Hv Hf Hc.
  - assert (e = 0) by lia. subst e. cbn. split; auto. intros a' e' E. injection E as <- <-. auto.
  - destruct e as [|e]; cbn [push_ref_loop push_loop].
    { split; auto. intros a' e' E. injection E as <- <-. auto. }
    rewrite (get_g dflt a ref) by lia. rewrite (get_g dflt a (e / 2)) by lia. cbn [bind]. rewrite Hv.
    destruct (li v (g a (e / 2))) eqn:El; cbn [negb].
    { split; auto. intros a' e' E. injection E as <- <-. auto. }
    unfold put. replace (S e <? length a) with true by lia. cbn [bind].
    apply IH; rewrite ?length_upd; try lia.
    + rewrite g_upd_neq by lia. exact Hv.
    + destruct Hc as [Hc|(Hc & Hl)]; [auto|]. right. split; auto. intros ->. rewrite Hv in El. congruence.
Qed.

(** If elements of equal importance are equal, overwriting the slot changes nothing. *)
Lemma push_ref_loop_anti v ref (Hanti : forall a b, le a b = true -> le b a = true -> a = b) :
  forall fuel a e n, heap le dflt a n -> n <= length a -> ref < n -> e < length a -> e <= n -> g a ref = v -> e <= fuel ->
  (forall i, 0 < i < n -> le (g a i) (g a (par i)) = true) ->
  push_ref_loop li fuel a ref e = push_loop li fuel a v e
  /\ forall a' e', push_loop li fuel a v e = Ok (a', e') -> ref < length a' /\ g a' ref = v.
Proof.
  intros fuel a e n Hh Hn Hr He Hen Hv Hf _.
  assert (K : forall fuel b e, length b = length a -> (forall k, k < e -> k < n -> g b k = g a k) -> e < length a -> e <= n -> e <= fuel -> g b ref = v ->
     push_ref_loop li fuel b ref e = push_loop li fuel b v e
     /\ forall a' e', push_loop li fuel b v e = Ok (a', e') -> ref < length a' /\ g a' ref = v).
  { clear fuel e He Hen Hf. induction fuel as [|f IH]; intros b e Hl Hk He Hen Hf Hb.
    - assert (e = 0) by lia. subst e. cbn. split; auto. intros a' e' E. injection E as <- <-. split; [lia|auto].
    - destruct e as [|e]; cbn [push_ref_loop push_loop].
      { split; auto. intros a' e' E. injection E as <- <-. split; [lia|auto]. }
      rewrite (get_g dflt b ref) by lia. rewrite (get_g dflt b (e / 2)) by lia. cbn [bind]. rewrite Hb.
      destruct (li v (g b (e / 2))) eqn:El; cbn [negb].
      { split; auto. intros a' e' E. injection E as <- <-. split; [lia|auto]. }
      unfold put. replace (S e <? length b) with true by lia. cbn [bind].
      apply IH; rewrite ?length_upd; try lia.
      + intros k Hk1 Hk2. rewrite g_upd_neq by lia. apply Hk; lia.
      + rewrite g_upd by lia. destruct (Nat.eqb_spec (S e) ref) as [Eq|]; [|exact Hb].
        apply Hanti; [now apply li_ge|].
        assert (X := Hh ref ltac:(lia)). replace (par ref) with (e / 2) in X by (unfold par; rewrite <- Eq; f_equal; lia).
        rewrite Hk by lia. rewrite Hv in X. exact X. }
  apply K; auto.
Qed.

Lemma push_ref_value q l ref : RepQ le dflt q l -> ref < pq_size q -> (N.of_nat (pq_size q) < size_available q)%N ->
  (ref = 0 \/ (forall a b, li a b = le a b) \/ (forall a b, le a b = true -> le b a = true -> a = b)) ->
  pq_push_ref li q ref = pq_push li dflt q (g (pq q) ref).
Proof.
  intros (L & S1 & S0 & Hh & P) Hr Hs Hc. unfold pq_push_ref, pq_push.
  replace (N.eqb (N.of_nat (pq_size q)) (size_available q)) with false by lia. cbn [bind].
  assert (K : push_ref_loop li (pq_size q) (pq q) ref (pq_size q) = push_loop li (pq_size q) (pq q) (g (pq q) ref) (pq_size q)
    /\ forall a' e', push_loop li (pq_size q) (pq q) (g (pq q) ref) (pq_size q) = Ok (a', e') -> ref < length a' /\ g a' ref = g (pq q) ref).
  { destruct Hc as [Hc|[Hc|Hc]].
    - apply push_ref_loop_away; auto; lia.
    - apply push_ref_loop_away; auto; try lia. right. split; [lia|]. rewrite Hc. apply (le_refl le le_total).
    - apply (push_ref_loop_anti _ _ Hc) with (n := pq_size q); auto; lia. }
  destruct K as (-> & K). destruct (push_loop _ _ _ _ _) as [[a' e']| | |]; auto. cbn [bind].
  destruct (K _ _ eq_refl) as (K1 & K2). rewrite (get_g dflt a' ref K1). cbn [bind]. now rewrite K2.
Qed.

(** The larger child of the root, as replaceTop picks it. *)
Lemma pick_child a n cur : n <= length a -> 2 * cur + 1 < n ->
  exists sd, (if 2 * cur + 1 + 1 <? n then
         let! dr := get a (2 * cur + 1 + 1) in
         Ok (if li (g a (2 * cur + 1)) dr then 2 * cur + 1 + 1 else 2 * cur + 1)
       else Ok (2 * cur + 1)) = Ok sd /\ 0 < sd < n /\ par sd = cur /\ cur < sd /\ (forall s, 0 < s < n -> par s = cur -> le (g a s) (g a sd) = true).
Proof.
  intros Hl E1. destruct (2 * cur + 1 + 1 <? n) eqn:E2.
  - rewrite (get_g dflt) by lia. cbn [bind]. replace (2 * cur + 1 + 1) with (2 * cur + 2) in * by lia.
    destruct (li (g a (2 * cur + 1)) (g a (2 * cur + 2))) eqn:El.
    + exists (2 * cur + 2). split; auto. split; [lia|]. split; [unfold par; lia|]. split; [lia|]. intros s Hs Ps.
      assert (Ps2 : s = 2 * cur + 1 \/ s = 2 * cur + 2) by (unfold par in Ps; lia); clear Ps; rename Ps2 into Ps. destruct Ps as [-> | ->]; [now apply li_le|apply (le_refl le le_total)].
    + exists (2 * cur + 1). split; auto. split; [lia|]. split; [unfold par; lia|]. split; [lia|]. intros s Hs Ps.
      assert (Ps2 : s = 2 * cur + 1 \/ s = 2 * cur + 2) by (unfold par in Ps; lia); clear Ps; rename Ps2 into Ps. destruct Ps as [-> | ->]; [apply (le_refl le le_total)|now apply li_ge].
  - exists (2 * cur + 1). split; auto. split; [lia|]. split; [unfold par; lia|]. split; [lia|]. intros s Hs Ps.
    assert (Ps2 : s = 2 * cur + 1 \/ s = 2 * cur + 2) by (unfold par in Ps; lia); clear Ps; rename Ps2 into Ps. destruct Ps as [-> | ->]; [apply (le_refl le le_total)|lia].
Qed.

(** Below the root the argument pq[0] does not change any more. *)
Lemma replace_ref_below v n : forall fuel a cur, 0 < cur -> n <= length a -> cur < n -> g a 0 = v ->
  replace_ref_loop li fuel a n 0 cur = replace_loop li fuel a n v cur
  /\ forall a' c', replace_loop li fuel a n v cur = Ok (a', c') -> 0 < length a' /\ g a' 0 = v.
Proof.
  induction fuel as [|f IH]; intros a cur Hc Hl Hn Hv. { cbn. split; [auto|discriminate]. }
  cbn [replace_ref_loop replace_loop]. destruct (n <=? 2 * cur + 1) eqn:E1.
  { split; auto. intros a' c' E. injection E as <- <-. split; [lia|auto]. }
  rewrite (get_g dflt a (2 * cur + 1)) by lia. cbn [bind].
  destruct (pick_child a n cur Hl ltac:(lia)) as (sd & -> & Hsd & _ & Csd & _). cbn [bind].
  rewrite (get_g dflt a 0), (get_g dflt a sd) by lia. cbn [bind]. rewrite Hv.
  destruct (li v (g a sd)).
  - unfold put. replace (cur <? length a) with true by lia. cbn [bind].
    apply IH; rewrite ?length_upd; try lia. rewrite g_upd_neq by lia. exact Hv.
  - split; auto. intros a' c' E. injection E as <- <-. split; [lia|auto].
Qed.

(** Every element is below the better child of the root. *)
Lemma under_child a n sd : heap le dflt a n -> (forall s, 0 < s < n -> par s = 0 -> le (g a s) (g a sd) = true) ->
  forall i, 0 < i < n -> le (g a i) (g a sd) = true.
Proof.
  intros Hh Hs. induction i as [i IH] using lt_wf_ind. intros Hi.
  destruct (Nat.eq_dec (par i) 0) as [E|E]; [auto|].
  eapply le_trans; [apply Hh; lia|]. apply IH; unfold par in *; lia.
Qed.

Lemma tl_nth (a : list T) n i : n <= length a -> 0 < i < n -> In (g a i) (tl (firstn n a)).
Proof.
  intros Hl Hi. destruct a as [|x a]; [simpl in *; lia|]. destruct n; [lia|]. destruct i; [lia|]. simpl in *.
  rewrite <- (g_firstn le li dflt le_total le_trans li_le li_ge a n i) by lia. apply nth_In. rewrite firstn_length. lia.
Qed.
Lemma tl_in (a : list T) n y : n <= length a -> In y (tl (firstn n a)) -> exists i, 0 < i < n /\ g a i = y.
Proof.
  intros Hl Hy. destruct a as [|x a]; [destruct n; simpl in *; tauto|]. destruct n; [simpl in *; tauto|]. simpl in Hy, Hl.
  apply (firstn_in le li dflt le_total le_trans li_le li_ge) in Hy; [|lia]. destruct Hy as (i & Hi & E). exists (S i). split; [lia|auto].
Qed.
Lemma firstn_upd_0 (a : list T) n w : 0 < n <= length a -> firstn n (upd a 0 w) = w :: tl (firstn n a).
Proof. intros H. destruct a; [simpl in *; lia|]. destruct n; [lia|]. reflexivity. Qed.

Lemma heap_upd0 a n w i : heap le dflt a n -> 0 < i < n -> par i <> 0 -> le (g (upd a 0 w) i) (g (upd a 0 w) (par i)) = true.
Proof. intros H Hi Hp. rewrite !g_upd_neq by lia. now apply H. Qed.

Lemma replace_own_kept q l w : RepQ le dflt q l -> 0 < pq_size q ->
  (forall y, In y (tl (firstn (pq_size q) (pq q))) -> li w y = false) ->
  let q1 := mk_pq (size_available q) (pq_size q) (upd (pq q) 0 w) in
  pq_assign_top q w = Ok q1 /\ pq_replaceTop_ref li q1 0 = Ok q1 /\ pq_replaceTop li q w = Ok q1.
Proof.
  intros (L & S1 & S0 & Hh & P) Hn Hy q1. unfold pq_assign_top, put. replace (0 <? length (pq q)) with true by lia. cbn [bind].
  split; [reflexivity|]. assert (U : upd (upd (pq q) 0 w) 0 w = upd (pq q) 0 w) by (destruct (pq q); reflexivity).
  unfold pq_replaceTop_ref, pq_replaceTop, q1. cbn [pq size_available pq_size replace_ref_loop replace_loop].
  change (2 * 0 + 1) with 1. change (1 + 1) with 2.
  destruct (pq_size q <=? 1) eqn:E1.
  - cbn [bind]. rewrite (get_g dflt) by (rewrite length_upd; lia). cbn [bind]. rewrite g_upd_eq by lia. unfold put. rewrite length_upd.
    replace (0 <? length (pq q)) with true by lia. cbn [bind]. rewrite U. auto.
  - destruct (pick_child (pq q) (pq_size q) 0 S1 ltac:(lia)) as (sd & Es & Hsd & _ & _ & _).
    change (2 * 0 + 1) with 1 in Es. change (1 + 1) with 2 in Es.
    rewrite (get_g dflt (upd (pq q) 0 w) 1) by (rewrite length_upd; lia). rewrite (get_g dflt (pq q) 1) by lia. cbn [bind].
    rewrite (g_upd_neq dflt (pq q) 0 1) by lia.
    assert (Es' : (if 2 <? pq_size q then let! dr := get (upd (pq q) 0 w) 2 in Ok (if li (g (pq q) 1) dr then 2 else 1) else Ok 1) = Ok sd).
    { destruct (2 <? pq_size q) eqn:E2; [|exact Es]. rewrite (get_g dflt) by (rewrite length_upd; lia). rewrite (get_g dflt) in Es by lia.
      rewrite g_upd_neq by lia. exact Es. }
    rewrite Es, Es'. cbn [bind]. rewrite (get_g dflt (upd (pq q) 0 w) 0), (get_g dflt (upd (pq q) 0 w) sd) by (rewrite length_upd; lia).
    rewrite (get_g dflt (pq q) sd) by lia. cbn [bind]. rewrite g_upd_eq by lia. rewrite g_upd_neq by lia.
    rewrite Hy by (apply tl_nth; lia). cbn [bind]. rewrite (get_g dflt) by (rewrite length_upd; lia). cbn [bind]. rewrite g_upd_eq by lia.
    unfold put. rewrite length_upd. replace (0 <? length (pq q)) with true by lia. cbn [bind]. rewrite U. auto.
Qed.

Lemma replace_own_lost q l w y : RepQ le dflt q l ->
  (forall a b c, li a b = true -> le b c = true -> li a c = true) ->
  In y (tl (firstn (pq_size q) (pq q))) -> li w y = true ->
  exists q1 q2 d, pq_assign_top q w = Ok q1 /\ pq_replaceTop_ref li q1 0 = Ok q2 /\ RepQ le dflt q2 (d :: tl (firstn (pq_size q) (pq q)))
    /\ In d (tl (firstn (pq_size q) (pq q))).
Proof.
  intros (L & S1 & S0 & Hh & P) Hlt Hy Hw. apply tl_in in Hy; [|lia]. destruct Hy as (i & Hi & <-).
  destruct (pick_child (pq q) (pq_size q) 0 S1 ltac:(lia)) as (sd & Es & Hsd & Psd & Csd & Lsd).
  change (2 * 0 + 1) with 1 in Es. change (1 + 1) with 2 in Es.
  set (n := pq_size q) in *. set (d := g (pq q) sd) in *.
  assert (Hd : li w d = true). { eapply Hlt; [exact Hw|]. unfold d. apply (under_child (pq q) n); auto. }
  unfold pq_assign_top, put. replace (0 <? length (pq q)) with true by lia. cbn [bind].
  set (b := upd (pq q) 0 d).
  assert (DB : DInv le dflt b n sd d).
  { split; [lia|]. unfold b. rewrite length_upd. split; [lia|]. split.
    - intros k Hk Pk. rewrite !(g_upd dflt (upd _ _ _)) by (rewrite length_upd; lia). rewrite !g_upd by lia.
      replace (0 =? k) with false by lia. destruct (sd =? par k) eqn:E1; [lia|].
      assert (Ek : (if sd =? k then d else g (pq q) k) = g (pq q) k).
      { destruct (Nat.eqb_spec sd k) as [<-|]; reflexivity. }
      rewrite Ek. destruct (0 =? par k) eqn:E2; [|apply Hh; lia]. apply Lsd; lia.
    - intros _ c Hc Pc. rewrite !g_upd by lia. rewrite Psd. replace (0 =? c) with false by lia. rewrite Nat.eqb_refl.
      unfold d. rewrite <- Pc. apply Hh. lia. }
  destruct (replace_loop_spec le li dflt le_total le_trans li_le li_ge d n n b sd DB ltac:(lia)) as (a' & c' & Er & La & Cn & Hh' & Pp).
  assert (Lb : length b = length (pq q)) by (unfold b; now rewrite length_upd).
  destruct (replace_ref_below d n n b sd) as (Eb & Kb); try lia. { unfold b. rewrite g_upd_eq by lia. reflexivity. }
  destruct (Kb _ _ Er) as (K1 & K2).
  eexists; exists (mk_pq (size_available q) n (upd a' c' d)), d. split; [reflexivity|].
  split; [|split].
  - unfold pq_replaceTop_ref. cbn [pq size_available pq_size replace_ref_loop]. fold n.
    change (2 * 0 + 1) with 1. change (1 + 1) with 2. replace (n <=? 1) with false by lia.
    rewrite (get_g dflt (upd (pq q) 0 w) 1) by (rewrite length_upd; lia). cbn [bind]. rewrite (g_upd_neq dflt (pq q) 0 1) by lia.
    assert (Es' : (if 2 <? n then let! dr := get (upd (pq q) 0 w) 2 in Ok (if li (g (pq q) 1) dr then 2 else 1) else Ok 1) = Ok sd).
    { destruct (2 <? n) eqn:E2; [|exact Es].
      rewrite (get_g dflt) by (rewrite length_upd; lia). rewrite (get_g dflt) in Es by lia. rewrite g_upd_neq by lia. exact Es. }
    rewrite Es'. cbn [bind]. rewrite (get_g dflt (upd (pq q) 0 w) 0), (get_g dflt (upd (pq q) 0 w) sd) by (rewrite length_upd; lia).
    cbn [bind]. rewrite g_upd_eq by lia. rewrite g_upd_neq by lia. fold d. rewrite Hd. unfold put. rewrite length_upd.
    replace (0 <? length (pq q)) with true by lia. cbn [bind].
    replace (upd (upd (pq q) 0 w) 0 d) with b by (unfold b; destruct (pq q); reflexivity).
    rewrite Eb, Er. cbn [bind]. rewrite (get_g dflt a' 0 K1). cbn [bind]. rewrite K2.
    replace (c' <? length a') with true by lia. cbn [bind]. reflexivity.
  - unfold RepQ; cbn [pq size_available pq_size]. rewrite length_upd. split; [lia|]. split; [lia|]. split; [assumption|]. split; [exact Hh'|].
    rewrite Pp. replace (upd b sd d) with b.
    + unfold b. rewrite firstn_upd_0 by lia. reflexivity.
    + symmetry. unfold b. assert (X : forall (l0 : list T) k x, nth k l0 x = d -> k < length l0 -> upd l0 k d = l0).
      { induction l0 as [|z l0 IH0]; intros [|k] x Ez Hk; simpl in *; try lia; [now subst|]. f_equal. apply (IH0 k x); [auto|lia]. }
      apply (X _ _ dflt); [|rewrite length_upd; lia]. rewrite g_upd_neq by lia. reflexivity.
  - apply tl_nth; lia.
Qed.
End P.
