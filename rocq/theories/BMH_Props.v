(** C16: BoyerMooreHorspool finds the first occurrence. *)
From Coq Require Import List Arith Bool Lia.
From Coq Require Import ZifyBool ZifyNat.
From Verif Require Import Common CommonFacts ListFacts BMH_Model.
Import ListNotations.

(** The specification: a block is a substring at offset k. *)
Definition occurs_at (needle hay : list nat) (k : nat) : Prop :=
  exists before after, hay = before ++ needle ++ after /\ length before = k.
Definition bytes (l : list nat) : Prop := Forall (fun c => c < 256) l.

(** Pointwise form. *)
Lemma occurs_nth nd h k : occurs_at nd h k <-> k + length nd <= length h /\ forall i, i < length nd -> nth_error h (k + i) = nth_error nd i.
Proof.
  split.
  - intros (b & a & -> & <-). split; [rewrite !app_length; lia|]. intros i Hi.
    rewrite nth_error_app2 by lia. replace (length b + i - length b) with i by lia. now rewrite nth_error_app1.
  - intros (Hl & H). exists (firstn k h), (skipn (k + length nd) h). split; [|rewrite firstn_length; lia].
    rewrite <- (firstn_skipn k h) at 1. f_equal.
    rewrite <- (firstn_skipn (length nd) (skipn k h)). f_equal.
    + apply nth_error_ext. intros i. destruct (Nat.lt_ge_cases i (length nd)).
      * rewrite <- H by auto. rewrite nth_error_firstn_lt by auto. now rewrite nth_error_skipn.
      * rewrite (proj2 (nth_error_None nd i)) by lia. apply nth_error_None. rewrite firstn_length. lia.
    + rewrite skipn_skipn. f_equal. lia.
Qed.

Lemma fill_ok nd last : last <= length nd -> bytes nd -> forall n i sh, n + i = last -> length sh = 256 ->
  (forall c, c < 256 -> exists v, nth_error sh c = Some v /\
     ((v = S last /\ (forall j, j < i -> nth_error nd j <> Some c)) \/
      (exists j, j < i /\ v = last - j /\ (forall j', j < j' < i -> nth_error nd j' <> Some c)))) ->
  exists sh', fill_shift n i last nd sh = Ok sh' /\
  (forall c, c < 256 -> exists v, nth_error sh' c = Some v /\
     ((v = S last /\ (forall j, j < last -> nth_error nd j <> Some c)) \/
      (exists j, j < last /\ v = last - j /\ (forall j', j < j' < last -> nth_error nd j' <> Some c)))).
Proof.
  intros Hl Hb. induction n as [|n IH]; intros i sh Hi Hs H.
  - exists sh. split; auto. replace last with i by lia. replace i with last in H at 3 4 5 6 by lia. replace last with i in H by lia. exact H.
  - cbn [fill_shift]. destruct (nth_error nd i) as [c|] eqn:Ec; [|apply nth_error_None in Ec; lia].
    assert (Hc : c < 256) by (eapply Forall_forall in Hb; [exact Hb|eapply nth_error_In; eauto]).
    unfold get; rewrite Ec; cbn [bind]. unfold put. replace (c <? length sh) with true by lia. cbn [bind].
    apply IH; [lia|now rewrite length_upd|]. intros c' Hc'. destruct (Nat.eq_dec c c') as [<-|Nc].
    + exists (last - i). rewrite nth_error_upd_eq by lia. split; auto. right. exists i. repeat split; auto; lia.
    + rewrite nth_error_upd_neq by auto. destruct (H c' Hc') as (v & Ev & D). exists v. split; auto. destruct D as [(-> & D)|(j & Hj & -> & D)].
      * left. split; auto. intros j Hj. destruct (Nat.eq_dec j i) as [->|]; [congruence|]. apply D; lia.
      * right. exists j. repeat split; auto; try lia. intros j' Hj'. destruct (Nat.eq_dec j' i) as [->|]; [congruence|]. apply D; lia.
Qed.

Lemma match_back_ok nd h : forall i, i < length nd -> length nd <= length h ->
  exists b, match_back nd h i = Ok b /\ (b = true <-> forall j, j <= i -> nth_error h j = nth_error nd j).
Proof.
  assert (Base : forall i, i < length nd -> length nd <= length h -> exists a b, nth_error h i = Some a /\ nth_error nd i = Some b).
  { intros i Hi Hl. destruct (nth_error h i) eqn:E1; [|apply nth_error_None in E1; lia].
    destruct (nth_error nd i) eqn:E2; [|apply nth_error_None in E2; lia]. eauto. }
  induction i as [|i IH]; intros Hi Hl; cbn [match_back]; destruct (Base _ Hi Hl) as (a & b & E1 & E2); unfold get; rewrite E1, E2; cbn [bind];
    destruct (Nat.eqb_spec a b) as [->|N].
  - exists true. split; auto. split; auto. intros _ j Hj. replace j with 0 by lia. congruence.
  - exists false. split; auto. split; [discriminate|]. intros H. specialize (H 0 (le_n _)). congruence.
  - destruct (IH ltac:(lia) Hl) as (r & Er & Hr). exists r. split; auto. rewrite Hr. split.
    + intros H j Hj. destruct (Nat.eq_dec j (S i)) as [->|]; [congruence|]. apply H; lia.
    + intros H j Hj. apply H; lia.
  - exists false. split; auto. split; [discriminate|]. intros H. specialize (H _ (le_n _)). congruence.
Qed.

Definition good (b : bmh) : Prop :=
  needle_length b = length (needle b) /\ needle_length b = S (last b) /\
  (forall c, c < 256 -> exists v, nth_error (bad_char_shift b) c = Some v /\
     ((v = S (last b) /\ (forall j, j < last b -> nth_error (needle b) j <> Some c)) \/
      (exists j, j < last b /\ v = last b - j /\ (forall j', j < j' < last b -> nth_error (needle b) j' <> Some c)))).

Lemma find_loop_ok b hay : good b -> bytes hay -> forall fuel off, off <= length hay -> length hay < off + fuel ->
  (forall k, k < off -> ~ occurs_at (needle b) hay k) ->
  exists r, find_loop fuel b (skipn off hay) (length hay - off) off = Ok r /\
    match r with
    | Some k => occurs_at (needle b) hay k /\ (forall j, j < k -> ~ occurs_at (needle b) hay j)
    | None => forall k, ~ occurs_at (needle b) hay k
    end.
Proof.
  intros (G1 & G2 & G3) Hb. induction fuel as [|f IH]; intros off Ho Hf Hbefore; [lia|]. cbn [find_loop].
  assert (Hend : length hay - off < needle_length b -> forall k, ~ occurs_at (needle b) hay k).
  { intros Hlt k Hk. destruct (Nat.lt_ge_cases k off); [now apply (Hbefore k)|]. apply occurs_nth in Hk. lia. }
  destruct (needle_length b <=? length hay - off) eqn:E1; [|exists None; split; auto; apply Hend; lia].
  assert (Hlen : length (skipn off hay) = length hay - off) by apply skipn_length.
  destruct (match_back_ok (needle b) (skipn off hay) (last b)) as (m & Em & Hm); [lia|lia|]. rewrite Em; cbn [bind].
  assert (Occ : occurs_at (needle b) hay off <-> m = true).
  { rewrite Hm, occurs_nth. split.
    - intros (_ & H) j Hj. rewrite nth_error_skipn. apply H. lia.
    - intros H. split; [lia|]. intros i Hi. rewrite <- nth_error_skipn. apply H. lia. }
  destruct m. { exists (Some off). split; auto. split; auto. now apply Occ. }
  assert (Noff : ~ occurs_at (needle b) hay off) by (rewrite Occ; discriminate).
  destruct (nth_error (skipn off hay) (last b)) as [c|] eqn:Ec; [|apply nth_error_None in Ec; lia].
  unfold get at 1. rewrite Ec; cbn [bind]. assert (Ec' := Ec). rewrite nth_error_skipn in Ec'.
  assert (Hc : c < 256) by (eapply Forall_forall in Hb; [exact Hb|eapply nth_error_In; eauto]).
  destruct (G3 c Hc) as (v & Ev & D). unfold get. rewrite Ev; cbn [bind].
  assert (Hv : 0 < v) by (destruct D as [(-> & _)|(j & Hj & -> & _)]; lia).
  assert (Hskip : forall k, off <= k < off + v -> ~ occurs_at (needle b) hay k).
  { intros k Hk Hoc. destruct (Nat.eq_dec k off) as [->|Nk]; [tauto|]. apply occurs_nth in Hoc. destruct Hoc as (Hl & Hn).
    assert (Hle : v <= S (last b)) by (destruct D as [(-> & _)|(j & Hj & -> & _)]; lia).
    specialize (Hn (last b - (k - off)) ltac:(lia)). replace (k + (last b - (k - off))) with (off + last b) in Hn by lia.
    rewrite Ec' in Hn. destruct D as [(-> & D)|(j & Hj & -> & D)].
    - apply (D (last b - (k - off))); [lia|congruence].
    - apply (D (last b - (k - off))); [lia|congruence]. }
  assert (Hnext : forall k, k < off + v -> ~ occurs_at (needle b) hay k).
  { intros k Hk. destruct (Nat.lt_ge_cases k off); [now apply Hbefore|]. apply Hskip. lia. }
  destruct (length hay - off <? v) eqn:E2.
  - exists None. split; auto. intros k Hk. destruct (Nat.lt_ge_cases k (off + v)); [now apply (Hnext k)|]. apply occurs_nth in Hk. lia.
  - rewrite skipn_skipn. replace (v + off) with (off + v) by lia. replace (length hay - off - v) with (length hay - (off + v)) by lia.
    apply IH; auto; lia.
Qed.

(** C16. For every non-empty needle and every haystack, over all byte values. *)
Theorem C16_find_first_occurrence :
  forall needle hay : list nat, bytes needle -> bytes hay -> needle <> [] ->
  exists b r, bmh_new needle = Ok b /\ bmh_find b hay = Ok r
   /\ bmh_matches b hay = Ok (match r with Some _ => true | None => false end)
   /\ match r with
      | Some k => occurs_at needle hay k /\ (forall j, j < k -> ~ occurs_at needle hay j)
      | None => forall k, ~ occurs_at needle hay k
      end.
Proof.
  intros nd hay Hn Hh Hne. unfold bmh_new. assert (0 < length nd) by (destruct nd; simpl; [congruence|lia]).
  replace (0 <? length nd) with true by lia. cbn [invariant bind].
  destruct (fill_ok nd (length nd - 1) ltac:(lia) Hn (length nd - 1) 0 (repeat (length nd) 256)) as (sh & Es & Hs); [lia|apply repeat_length| |].
  { intros c Hc. exists (length nd). split; [apply nth_error_repeat; auto|]. left. split; [lia|]. intros; lia. }
  rewrite Es; cbn [bind]. set (b := mk_bmh sh nd (length nd) (length nd - 1)). exists b.
  assert (G : good b) by (split; [reflexivity|]; split; [cbn; lia|exact Hs]).
  destruct (find_loop_ok b hay G Hh (S (length hay)) 0) as (r & Er & Hr); [lia|lia|intros; lia|].
  rewrite Nat.sub_0_r in Er. cbn [skipn] in Er. exists r. unfold bmh_matches, bmh_find. rewrite Er. cbn [bind]. auto.
Qed.
Print Assumptions C16_find_first_occurrence.

(** The constructor rejects the empty needle. *)
Theorem C16_empty_needle : bmh_new [] = Abort.
Proof. reflexivity. Qed.
Print Assumptions C16_empty_needle.

Example C16_run :
  match bmh_new [1; 2; 1; 255] with
  | Ok b => bmh_find b [1; 2; 1; 2; 1; 2; 1; 255; 0; 1; 2; 1; 255] = Ok (Some 4) /\ bmh_find b [1; 2; 1] = Ok None
            /\ bmh_find b [1; 2; 1; 2; 1; 255; 2; 1] = Ok (Some 2)
  | _ => False
  end.
Proof. vm_compute. auto. Qed.
