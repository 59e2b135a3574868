(** Histories of PriorityQueue. *)
From Coq Require Import List Arith NArith ZArith Lia Bool Permutation Sorted.
From Coq Require Import ZifyBool ZifyNat ZifyN.
From Verif Require Import Common CommonFacts PriorityQueue_Spec PriorityQueue_Model PriorityQueue_Proofs.
Import ListNotations.

Definition is_bottom_up {T} (o : pqop T) : bool := match o with PPopBottomUp => true | _ => false end.

Section PF.
Context {T : Type}.
Variable le : T -> T -> bool.
Variable li : T -> T -> bool.
Variable dflt : T.
Hypothesis le_total : forall a b, le a b = true \/ le b a = true.
Hypothesis le_trans : forall a b c, le a b = true -> le b c = true -> le a c = true.
Hypothesis li_le : forall a b, li a b = true -> le a b = true.
Hypothesis li_ge : forall a b, li a b = false -> le b a = true.

Notation Rep := (RepQ le dflt).

Lemma RepQ_perm q l l' : Rep q l -> Permutation l l' -> Rep q l'.
Proof. intros (A & B & C & D & E) P. repeat split; auto. now rewrite E. Qed.

Lemma new_rep n : (0 < n)%N -> Rep (pq_new dflt n) [].
Proof. intros H. unfold RepQ, pq_new; cbn. unfold new_array. rewrite repeat_length. repeat split; auto; try lia. intros i Hi; lia. Qed.

Lemma step_rep q l o : Rep q l -> (N.of_nat (length l) < 2 ^ 31)%N -> (is_bottom_up o = false \/ forall a b, li a b = le a b) ->
  (l = [] -> needs_element o = false) ->
  (exists q' out l', pq_step li dflt q o = Ok (q', out) /\ Rep q' l' /\ pqstep le l o out l' /\ length l' <= S (length l))
  \/ (pq_step li dflt q o = Abort /\ l <> [] /\ exists amt, o = PReserve amt).
Proof.
  intros R Hb Hbu Hne. assert (Hn := RepQ_len le li dflt le_total le_trans li_le li_ge q l R).
  assert (Hl : needs_element o = true -> l <> []) by (intros H E; specialize (Hne E); congruence).
  assert (Ln : forall l0 l' (x : T), Permutation l0 (x :: l') -> length l' <= length l0).
  { intros l0 l' x P. apply Permutation_length in P. simpl in P. lia. }
  destruct o; cbn [pq_step needs_element] in *.
  - left. destruct (push_rep le li dflt le_total le_trans li_le li_ge q l v R Hb) as (q' & -> & R'). cbn [bind]. do 3 eexists; split; [reflexivity|]; split; [exact R'|]. split; [constructor|simpl; lia].
  - left. destruct (top_rep le li dflt le_total le_trans li_le li_ge q l R (Hl eq_refl)) as (x & -> & M & _). cbn [bind]. do 3 eexists; split; [reflexivity|]; split; [exact R|]. split; [now constructor|lia].
  - left. destruct (top_rep le li dflt le_total le_trans li_le li_ge q l R (Hl eq_refl)) as (x & -> & M & Ex). cbn [bind].
    destruct (pop_rep le li dflt le_total le_trans li_le li_ge q l R (Hl eq_refl)) as (q' & l' & -> & R' & P & _). cbn [bind].
    rewrite <- Ex in P. do 3 eexists; split; [reflexivity|]; split; [exact R'|]. split; [constructor; auto|apply Ln in P; lia].
  - left. destruct Hbu as [Hbu|Hbu]; [discriminate|].
    destruct (top_rep le li dflt le_total le_trans li_le li_ge q l R (Hl eq_refl)) as (x & -> & M & Ex). cbn [bind].
    destruct (popbu_rep le li dflt le_total le_trans li_le li_ge Hbu q l R (Hl eq_refl)) as (q' & l' & -> & R' & P & _). cbn [bind].
    rewrite <- Ex in P. do 3 eexists; split; [reflexivity|]; split; [exact R'|]. split; [constructor; auto|apply Ln in P; lia].
  - left. destruct (top_rep le li dflt le_total le_trans li_le li_ge q l R (Hl eq_refl)) as (x & -> & M & Ex). cbn [bind].
    destruct (replace_rep le li dflt le_total le_trans li_le li_ge q l v R (Hl eq_refl)) as (q' & l' & -> & R' & P & _). cbn [bind].
    rewrite <- Ex in P. do 3 eexists; split; [reflexivity|]; split; [exact R'|]. split; [constructor; auto|apply Ln in P; simpl; lia].
  - left. destruct (drain_rep le li dflt le_total le_trans li_le li_ge _ q l R eq_refl) as (out & q' & -> & P & S1 & R' & _). cbn [bind].
    do 3 eexists; split; [reflexivity|]; split; [exact R'|]. split; [constructor; auto|simpl; lia].
  - left. do 3 eexists; split; [reflexivity|]; split; [exact R|]. split; [ rewrite <- Hn; constructor|lia].
  - left. do 3 eexists; split; [reflexivity|]; split; [exact R|]. split; [ unfold pq_empty; rewrite <- Hn; constructor|lia].
  - left. do 3 eexists; split; [reflexivity|]; split; [|split; [constructor|simpl; lia]]. destruct R as (A & B & C & D & E). repeat split; auto; cbn; try lia. intros i Hi; cbn in Hi; lia.
  - destruct l as [|y l].
    + left. destruct (reserve_rep le li dflt le_total le_trans li_le li_ge q amt R) as (q' & -> & R'). cbn [bind]. do 3 eexists; split; [reflexivity|]; split; [exact R'|]. split; [constructor|simpl; lia].
    + right. unfold pq_reserve, pq_empty. rewrite <- Hn. cbn [length Nat.eqb invariant bind]. repeat split; eauto. congruence.
Qed.

Lemma hist_rep : forall ops q l, Rep q l -> (N.of_nat (length l + length ops) <= 2 ^ 31)%N ->
  (existsb is_bottom_up ops = false \/ forall a b, li a b = le a b) ->
  pqhist le l ops (run_ops (pq_step li dflt) q ops).
Proof.
  induction ops as [|o ops IH]; intros q l R Hb Hbu; [constructor|]. cbn [run_ops]. cbn [length] in Hb. cbn [existsb] in Hbu.
  destruct (match l with [] => needs_element o | _ => false end) eqn:Em.
  { destruct l; [|discriminate]. now constructor. }
  assert (Hb1 : is_bottom_up o = false \/ forall a b, li a b = le a b) by (destruct Hbu as [H|H]; auto; apply orb_false_iff in H; tauto).
  assert (Hb2 : existsb is_bottom_up ops = false \/ forall a b, li a b = le a b) by (destruct Hbu as [H|H]; auto; apply orb_false_iff in H; tauto).
  destruct (step_rep q l o R ltac:(lia) Hb1) as [(q' & out & l' & -> & R' & S1 & Hl')|(-> & Hne & amt & ->)].
  - intros ->; exact Em.
  - eapply H_ok; [exact S1|]. apply IH; auto. lia.
  - now constructor.
Qed.

Lemma exec_rep : forall ops q l q', Rep q l -> (N.of_nat (length l + length ops) <= 2 ^ 31)%N ->
  (existsb is_bottom_up ops = false \/ forall a b, li a b = le a b) ->
  exec_ops (pq_step li dflt) q ops = Ok q' -> exists l', Rep q' l' /\ length l' <= length l + length ops.
Proof.
  induction ops as [|o ops IH]; intros q l q' R Hb Hbu; cbn [exec_ops]. { inversion 1; subst. exists l. split; auto. lia. }
  cbn [length existsb] in *.
  assert (Hb1 : is_bottom_up o = false \/ forall a b, li a b = le a b) by (destruct Hbu as [H|H]; auto; apply orb_false_iff in H; tauto).
  assert (Hb2 : existsb is_bottom_up ops = false \/ forall a b, li a b = le a b) by (destruct Hbu as [H|H]; auto; apply orb_false_iff in H; tauto).
  destruct (match l with [] => needs_element o | _ => false end) eqn:Em.
  - destruct l; [|discriminate]. assert (Hn := RepQ_len le li dflt le_total le_trans li_le li_ge q _ R). simpl in Hn.
    assert (Gen : forall q1, Rep q1 [] -> exec_ops (pq_step li dflt) q1 ops = Ok q' -> exists l', Rep q' l' /\ length l' <= length (@nil T) + S (length ops)).
    { intros q1 R1 E. destruct (IH q1 [] q' R1) as (l' & R' & L'); auto. cbn [length] in *; lia. exists l'. split; auto. simpl in *; lia. }
    destruct o; try discriminate; cbn [pq_step].
    + destruct (pq_top q); cbn [bind]; try discriminate. apply Gen; auto.
    + destruct (pq_top q); cbn [bind]; try discriminate. unfold pq_pop. rewrite <- Hn. cbn [bind]. discriminate.
    + destruct (pq_top q); cbn [bind]; try discriminate. unfold pq_pop_bottom_up. rewrite <- Hn. cbn [bind]. discriminate.
    + destruct (pq_top q); cbn [bind]; try discriminate. unfold pq_replaceTop. rewrite <- Hn. cbn [replace_loop Nat.leb Nat.mul Nat.add bind].
      unfold put. destruct (0 <? length (pq q)) eqn:El; cbn [bind]; try discriminate. apply Gen.
      destruct R as (A & B & C & D & E). repeat split; cbn; auto; try lia. { now rewrite length_upd. } intros i Hi; cbn in Hi; lia.
  - destruct (step_rep q l o R ltac:(lia) Hb1) as [(q1 & out & l1 & -> & R' & S1 & Hl')|(-> & Hne & amt & ->)].
    + intros ->; exact Em.
    + cbn [bind]. intros E. destruct (IH q1 l1 q' R') as (l' & R2 & L2); auto; try lia. exists l'. split; auto. lia.
    + cbn [bind]. discriminate.
Qed.

(** replaceTop against pop then push. *)
Lemma replace_is_pop_push q l v : Rep q l -> l <> [] -> (N.of_nat (length l) < 2 ^ 31)%N ->
  exists q1 q2 q3, pq_replaceTop li q v = Ok q1 /\ pq_pop li q = Ok q2 /\ pq_push li dflt q2 v = Ok q3
   /\ Permutation (firstn (pq_size q1) (pq q1)) (firstn (pq_size q3) (pq q3))
   /\ exists x y, pq_top q1 = Ok x /\ pq_top q3 = Ok y /\ le x y = true /\ le y x = true.
Proof.
  intros R Hl Hb.
  destruct (replace_rep le li dflt le_total le_trans li_le li_ge q l v R Hl) as (q1 & l1 & E1 & R1 & P1 & _).
  destruct (pop_rep le li dflt le_total le_trans li_le li_ge q l R Hl) as (q2 & l2 & E2 & R2 & P2 & _).
  assert (P12 : Permutation l1 l2). { apply Permutation_cons_inv with (nth 0 (pq q) dflt). now rewrite <- P1, P2. }
  assert (Ll : S (length l2) = length l) by (apply Permutation_length in P2; simpl in P2; lia).
  destruct (push_rep le li dflt le_total le_trans li_le li_ge q2 l2 v R2 ltac:(lia)) as (q3 & E3 & R3).
  exists q1, q2, q3. repeat (split; [assumption|]).
  assert (P : Permutation (v :: l1) (v :: l2)) by now constructor. split.
  - destruct R1 as (_ & _ & _ & _ & X). destruct R3 as (_ & _ & _ & _ & Y). rewrite X, Y. exact P.
  - destruct (top_rep le li dflt le_total le_trans li_le li_ge q1 _ R1 ltac:(congruence)) as (x & Ex & (Ix & Mx) & _).
    destruct (top_rep le li dflt le_total le_trans li_le li_ge q3 _ R3 ltac:(congruence)) as (y & Ey & (Iy & My) & _).
    exists x, y. repeat split; auto.
    + apply My. now apply (Permutation_in x P).
    + apply Mx. now apply (Permutation_in y (Permutation_sym P)).
Qed.

(** selfVerify on a strict comparator. *)
Lemma verify_ok q l : (forall a b, li a b = negb (le b a)) -> Rep q l -> pq_selfVerify li q = Ok tt.
Proof.
  intros Hli (A & B & C & D & E). unfold pq_selfVerify.
  assert (X : forall f i, verify_loop li f (pq q) (pq_size q) i = Ok tt); [|apply X].
  induction f as [|f IH]; intros i; cbn [verify_loop]; auto.
  destruct (pq_size q <=? 2 * i + 1) eqn:E1; auto.
  assert (Pl : par (2 * i + 1) = i) by apply (par_l le li dflt le_total le_trans li_le li_ge). assert (Pr : par (2 * i + 1 + 1) = i) by (replace (2 * i + 1 + 1) with (2 * i + 2) by lia; apply (par_r le li dflt le_total le_trans li_le li_ge)).
  rewrite (get_g dflt (pq q) i), (get_g dflt (pq q) (2 * i + 1)) by lia. cbn [bind].
  rewrite Hli. assert (Y := D (2 * i + 1) ltac:(lia)). rewrite Pl in Y. rewrite Y. cbn [negb invariant bind].
  destruct (pq_size q <=? 2 * i + 1 + 1) eqn:E2; auto.
  rewrite get_g with (dflt := dflt) by lia. cbn [bind]. rewrite Hli. assert (Z := D (2 * i + 1 + 1) ltac:(lia)). rewrite Pr in Z. rewrite Z.
  cbn [negb invariant bind]. apply IH.
Qed.
End PF.
