(** getQuantileByBinSearchIndex: the loop narrows all windows to the values
    between two thresholds. *)
From Coq Require Import List Arith ZArith NArith Lia Bool Permutation Sorted ZifyBool ZifyNat ZifyN.
From Verif Require Import Common CommonFacts ListFacts Quantile_Model Quantile_Facts Quantile_Merge.
Import ListNotations.
Local Open Scope nat_scope.

Lemma lower_bound_cnt t l : StronglySorted Z.le l -> lower_bound t l = cnt (lt_p t) l.
Proof.
  induction 1 as [|x l S IH F]; [reflexivity|]. rewrite cnt_cons. cbn [lower_bound]. unfold lt_p at 1. destruct (Z.ltb x t) eqn:E; [now rewrite IH|].
  rewrite cnt_none; auto. intros y Hy. rewrite Forall_forall in F. specialize (F y Hy). unfold lt_p. lia.
Qed.
Lemma upper_bound_cnt t l : StronglySorted Z.le l -> upper_bound t l = cnt (le_p t) l.
Proof.
  induction 1 as [|x l S IH F]; [reflexivity|]. rewrite cnt_cons. cbn [upper_bound]. unfold le_p at 1. destruct (Z.leb x t) eqn:E; [now rewrite IH|].
  rewrite cnt_none; auto. intros y Hy. rewrite Forall_forall in F. specialize (F y Hy). unfold le_p. lia.
Qed.

Lemma read_cells_some l : read_cells (map Some l) = Ok l.
Proof. induction l as [|x l IH]; simpl; auto. now rewrite IH. Qed.

Section Window.
Variables (plo phi : Z -> bool).
Hypothesis Dlo : down_closed plo.
Hypothesis Dhi : down_closed phi.
Hypothesis Sub : forall x, plo x = true -> phi x = true.

Definition window (vs : list Z) : list Z := firstn (cnt phi vs - cnt plo vs) (skipn (cnt plo vs) vs).

Lemma cnt_lohi vs : cnt plo vs <= cnt phi vs.
Proof. apply cnt_mono. auto. Qed.

Lemma window_split vs : vs = firstn (cnt plo vs) vs ++ window vs ++ skipn (cnt phi vs) vs.
Proof.
  unfold window. rewrite <- (firstn_skipn (cnt plo vs) vs) at 1. f_equal.
  rewrite <- (firstn_skipn (cnt phi vs - cnt plo vs) (skipn (cnt plo vs) vs)) at 1. f_equal. rewrite skipn_skipn.
  f_equal. pose proof (cnt_lohi vs). lia.
Qed.

Lemma window_count (q : Z -> bool) v vs : StronglySorted Z.le vs -> plo v = false -> phi v = true ->
  (forall x, (x < v)%Z -> q x = true) -> (forall x, (v < x)%Z -> q x = false) ->
  cnt q vs = cnt plo vs + cnt q (window vs).
Proof.
  intros S L H Q1 Q2. rewrite (window_split vs) at 1. rewrite !cnt_app.
  destruct (cnt_prefix plo vs Dlo S) as [A1 _]. destruct (cnt_prefix phi vs Dhi S) as [_ A2].
  rewrite (cnt_all q (firstn _ _)), (cnt_none q (skipn _ _)).
  - rewrite firstn_length. pose proof (cnt_le_length plo vs). lia.
  - intros x Hx. specialize (A2 x Hx). apply Q2. destruct (Z_le_gt_dec x v) as [Hl|]; [|lia]. rewrite (Dhi x v H Hl) in A2. discriminate.
  - intros x Hx. specialize (A1 x Hx). apply Q1. destruct (Z_le_gt_dec v x) as [Hl|]; [|lia]. rewrite (Dlo v x A1 Hl) in L. discriminate.
Qed.

(** Agreement of a weighted buffer with the arrays. *)
Definition buf_ok (s : quantile) (i : nat) (b : nat * list Z) : Prop :=
  StronglySorted Z.le (snd b) /\ 0 < fst b /\ nth_error (buffer_weight s) i = Some (Z.of_nat (fst b))
  /\ exists c, nth_error (all_buffers s) i = Some (Some c) /\ length (snd b) <= length c /\ firstn (length (snd b)) c = map Some (snd b).
Definition st (b : nat * list Z) : bsstate := mk_bs (cnt plo (snd b)) (cnt phi (snd b)) (length (snd b)).

Lemma bounds_spec s i b v : buf_ok s i b -> plo v = false -> phi v = true ->
  exists c, buffer_of s i = Ok c /\ calculateBounds (st b) v c = Ok (cnt (lt_p v) (snd b), cnt (le_p v) (snd b)).
Proof.
  intros (S & Wp & W & c & Eb & Lc & Ec) L H. exists c. split. { unfold buffer_of. now rewrite (get_nth _ _ _ Eb). }
  unfold calculateBounds. cbn [st bmin bmax]. pose proof (cnt_lohi (snd b)). pose proof (cnt_le_length phi (snd b)).
  replace ((cnt plo (snd b) <=? cnt phi (snd b)) && (cnt phi (snd b) <=? length c)) with true by lia.
  assert (E : firstn (cnt phi (snd b) - cnt plo (snd b)) (skipn (cnt plo (snd b)) c) = map Some (window (snd b))).
  { apply nth_error_ext. intros j. unfold window. rewrite nth_error_map.
    destruct (Nat.lt_ge_cases j (cnt phi (snd b) - cnt plo (snd b))) as [J|J].
    - rewrite !nth_error_firstn_lt, !nth_error_skipn by exact J. rewrite <- (nth_error_firstn_lt c (length (snd b))) by lia. rewrite Ec. apply nth_error_map.
    - rewrite !(proj2 (nth_error_None _ _)); auto; rewrite firstn_length; lia. }
  rewrite E, read_cells_some. cbn [bind].
  assert (Sw : StronglySorted Z.le (window (snd b))) by (apply ssorted_firstn, ssorted_skipn, S).
  rewrite lower_bound_cnt, upper_bound_cnt by exact Sw.
  rewrite (window_count (lt_p v) v (snd b) S L H), (window_count (le_p v) v (snd b) S L H); auto; unfold lt_p, le_p; lia.
Qed.
End Window.

Definition wcnt (p : Z -> bool) (B : list (nat * list Z)) : Z :=
  fold_right (fun b n => (Z.of_nat (fst b) * Z.of_nat (cnt p (snd b)) + n)%Z) 0%Z B.
Definition wtot (B : list (nat * list Z)) : Z :=
  fold_right (fun b n => (Z.of_nat (fst b) * Z.of_nat (length (snd b)) + n)%Z) 0%Z B.

Definition bufs_ok (s : quantile) (i : nat) (B : list (nat * list Z)) : Prop :=
  forall j b, nth_error B j = Some b -> buf_ok s (i + j) b.

Lemma bufs_ok_cons s i b B : bufs_ok s i (b :: B) -> buf_ok s i b /\ bufs_ok s (S i) B.
Proof. intros H. split. { specialize (H 0 b eq_refl). now rewrite Nat.add_0_r in H. }
  intros j c E. specialize (H (S j) c E). now rewrite Nat.add_succ_r in H. Qed.

Lemma split_all_spec s plo phi v : down_closed plo -> down_closed phi -> (forall x, plo x = true -> phi x = true) ->
  plo v = false -> phi v = true -> forall B i, bufs_ok s i B ->
  split_all s v (map (st plo phi) B) i =
    Ok (map (fun b => (cnt (lt_p v) (snd b), cnt (le_p v) (snd b))) B,
        (wcnt (lt_p v) B, wcnt (le_p v) B - wcnt (lt_p v) B, wtot B - wcnt (le_p v) B)%Z).
Proof.
  intros D1 D2 Sub L H. induction B as [|b B IH]; intros i OK; [reflexivity|].
  apply bufs_ok_cons in OK. destruct OK as [O1 O2]. cbn [map split_all].
  destruct (bounds_spec plo phi D1 D2 Sub s i b v O1 L H) as (c & E1 & E2). rewrite E1. cbn [bind]. rewrite E2. cbn [bind].
  destruct O1 as (_ & _ & Ew & _). rewrite (get_nth _ _ _ Ew). cbn [bind]. rewrite (IH _ O2). cbn [bind wcnt wtot fold_right st orig_max].
  fold (wcnt (lt_p v) B). fold (wcnt (le_p v) B). fold (wtot B).
  pose proof (cnt_mono (lt_p v) (le_p v) (snd b)) as M. specialize (M ltac:(unfold lt_p, le_p; lia)). pose proof (cnt_le_length (le_p v) (snd b)).
  f_equal. f_equal. f_equal; [f_equal|]; nia.
Qed.

Lemma narrow_upper_spec plo phi v B : (forall x, plo x = true -> lt_p v x = true) ->
  narrow_upper (map (st plo phi) B) (map (fun b => (cnt (lt_p v) (snd b), cnt (le_p v) (snd b))) B)
  = Ok (map (st plo (lt_p v)) B, existsb (fun b => negb (cnt phi (snd b) =? cnt (lt_p v) (snd b))) B).
Proof.
  intros Sub. induction B as [|b B IH]; [reflexivity|]. cbn [map narrow_upper st bmin bmax orig_max].
  pose proof (cnt_mono plo (lt_p v) (snd b) ltac:(auto)). replace (cnt plo (snd b) <=? cnt (lt_p v) (snd b)) with true by lia. cbn [invariant bind].
  rewrite IH. reflexivity.
Qed.
Lemma narrow_lower_spec plo phi v B : (forall x, le_p v x = true -> phi x = true) ->
  narrow_lower (map (st plo phi) B) (map (fun b => (cnt (lt_p v) (snd b), cnt (le_p v) (snd b))) B)
  = Ok (map (st (le_p v) phi) B, existsb (fun b => negb (cnt plo (snd b) =? cnt (le_p v) (snd b))) B).
Proof.
  intros Sub. induction B as [|b B IH]; [reflexivity|]. cbn [map narrow_lower st bmin bmax orig_max].
  pose proof (cnt_mono (le_p v) phi (snd b) ltac:(auto)). replace (cnt (le_p v) (snd b) <=? cnt phi (snd b)) with true by lia. cbn [invariant bind].
  rewrite IH. reflexivity.
Qed.

(** biggestRemaining picks a window that is as long as any. *)
Lemma biggest_from_spec : forall l i big rem all, (forall j b, nth_error l j = Some b -> nth_error all (i + j) = Some b) ->
  (exists b, nth_error all big = Some b /\ remain b = rem) ->
  exists b, nth_error all (biggest_from l i big rem) = Some b /\ rem <= remain b /\ (forall c, In c l -> remain c <= remain b).
Proof.
  induction l as [|b l IH]; intros i big rem all Hl (b0 & E0 & <-); cbn [biggest_from].
  - exists b0. split; auto. split; auto. intros c [].
  - assert (Hl' : forall j c, nth_error l j = Some c -> nth_error all (S i + j) = Some c).
    { intros j c E. specialize (Hl (S j) c E). now rewrite Nat.add_succ_r in Hl. }
    assert (E : nth_error all i = Some b). { specialize (Hl 0 b eq_refl). now rewrite Nat.add_0_r in Hl. }
    destruct (remain b0 <? remain b) eqn:C.
    + destruct (IH (S i) i (remain b) all Hl' (ex_intro _ b (conj E eq_refl))) as (c & A1 & A2 & A3).
      exists c. split; auto. split; [lia|]. intros d [<-|Hd]; auto.
    + destruct (IH (S i) big (remain b0) all Hl' (ex_intro _ b0 (conj E0 eq_refl))) as (c & A1 & A2 & A3).
      exists c. split; auto. split; auto. intros d [<-|Hd]; auto. lia.
Qed.
Lemma biggest_spec l : l <> [] -> exists i b, biggestRemaining l = Ok i /\ nth_error l i = Some b /\ (forall c, In c l -> remain c <= remain b).
Proof.
  destruct l as [|b l]; [congruence|]. intros _. unfold biggestRemaining.
  destruct (biggest_from_spec l 1 0 (remain b) (b :: l)) as (c & A1 & A2 & A3); [auto|exists b; auto|].
  eexists _, c. split; [reflexivity|]. split; auto. intros d [<-|Hd]; auto.
Qed.

Definition rooms plo phi (B : list (nat * list Z)) : nat := fold_right (fun b n => (cnt phi (snd b) - cnt plo (snd b)) + n) 0 B.

Lemma wcnt_cons p b B : wcnt p (b :: B) = (Z.of_nat (fst b) * Z.of_nat (cnt p (snd b)) + wcnt p B)%Z. Proof. reflexivity. Qed.
Lemma wcnt_mono p q B : (forall x, p x = true -> q x = true) -> (wcnt p B <= wcnt q B)%Z.
Proof. intros H. induction B as [|b B IH]; [cbn; lia|]. rewrite !wcnt_cons. pose proof (cnt_mono p q (snd b) ltac:(auto)). nia. Qed.
Lemma wcnt_wtot p B : (wcnt p B <= wtot B)%Z.
Proof. induction B as [|b B IH]; [cbn; lia|]. rewrite wcnt_cons. cbn [wtot fold_right]. fold (wtot B). pose proof (cnt_le_length p (snd b)). nia. Qed.

Lemma rooms_le plo phi qlo qhi B : (forall b, In b B -> cnt qhi (snd b) - cnt qlo (snd b) <= cnt phi (snd b) - cnt plo (snd b)) ->
  rooms qlo qhi B <= rooms plo phi B.
Proof. induction B as [|b B IH]; intros H; [reflexivity|]. cbn [rooms fold_right].
  assert (rooms qlo qhi B <= rooms plo phi B) by (apply IH; intros; apply H; simpl; auto). unfold rooms in *. pose proof (H b (or_introl eq_refl)). lia. Qed.
Lemma rooms_lt plo phi qlo qhi B b0 : In b0 B -> cnt qhi (snd b0) - cnt qlo (snd b0) < cnt phi (snd b0) - cnt plo (snd b0) ->
  (forall b, In b B -> cnt qhi (snd b) - cnt qlo (snd b) <= cnt phi (snd b) - cnt plo (snd b)) -> rooms qlo qhi B < rooms plo phi B.
Proof. induction B as [|b B IH]; intros I L H; [destruct I|]. cbn [rooms fold_right].
  assert (H' : forall b, In b B -> cnt qhi (snd b) - cnt qlo (snd b) <= cnt phi (snd b) - cnt plo (snd b)) by (intros; apply H; simpl; auto).
  destruct I as [->|I].
  - pose proof (rooms_le plo phi qlo qhi B H'). unfold rooms in *. lia.
  - specialize (IH I L H'). pose proof (H b (or_introl eq_refl)). unfold rooms in *. lia. Qed.

Theorem bin_loop_spec s B target : bufs_ok s 0 B ->
  forall fuel plo phi, down_closed plo -> down_closed phi -> (forall x, plo x = true -> phi x = true) ->
  (wcnt plo B <= target < wcnt phi B)%Z -> rooms plo phi B < fuel ->
  exists v, bin_loop fuel s target (wtot B) (map (st plo phi) B) = Ok v /\ (wcnt (lt_p v) B <= target < wcnt (le_p v) B)%Z
    /\ exists b, In b B /\ In v (snd b).
Proof.
  intros OK. induction fuel as [|f IH]; intros plo phi D1 D2 Sub Ht Hf; [lia|].
  assert (NE : map (st plo phi) B <> []). { destruct B; [cbn in Ht; lia|simpl; congruence]. }
  destruct (biggest_spec _ NE) as (big & b & E1 & E2 & Hmax).
  cbn [bin_loop]. rewrite E1. cbn [bind]. rewrite (get_nth _ _ _ E2). cbn [bind].
  rewrite nth_error_map in E2. destruct (nth_error B big) as [bb|] eqn:Eb; [|discriminate]. cbn [option_map] in E2. injection E2 as <-.
  assert (Ib : In bb B) by (apply nth_error_In with big, Eb).
  (* the chosen window is not empty *)
  assert (Room : cnt plo (snd bb) < cnt phi (snd bb)).
  { destruct (Nat.lt_ge_cases (cnt plo (snd bb)) (cnt phi (snd bb))) as [|G]; auto. exfalso.
    assert (forall c, In c B -> cnt plo (snd c) = cnt phi (snd c)).
    { intros c Hc. specialize (Hmax (st plo phi c) (in_map _ _ _ Hc)). unfold remain, st in Hmax. cbn [bmin bmax] in Hmax.
      pose proof (cnt_lohi plo phi Sub (snd c)). lia. }
    assert (wcnt plo B = wcnt phi B). { clear - H. induction B as [|c B IH]; [reflexivity|]. rewrite !wcnt_cons, (H c), IH; auto. intros; apply H; simpl; auto. now left. }
    lia. }
  pose proof (OK big bb Eb) as Ob. cbn [Nat.add] in Ob. destruct Ob as (Sv & Wp & Ew & c & Ec & Lc & Fc).
  unfold buffer_of. rewrite (get_nth _ _ _ Ec). cbn [bind].
  set (m := bmid (st plo phi bb)). assert (Hm : cnt plo (snd bb) <= m < cnt phi (snd bb)). { unfold m, bmid, st. cbn [bmin bmax]. lia. }
  pose proof (cnt_le_length phi (snd bb)) as Lphi.
  destruct (nth_error (snd bb) m) as [v|] eqn:Em; [|apply nth_error_None in Em; lia].
  assert (Ecm : nth_error c m = Some (Some v)). { rewrite <- (nth_error_firstn_lt c (length (snd bb))) by lia. rewrite Fc, nth_error_map, Em. reflexivity. }
  rewrite (get_nth _ _ _ Ecm). cbn [bind].
  assert (Plo : plo v = false). { destruct (plo v) eqn:E; auto. apply (cnt_nth plo (snd bb) m v D1 Sv Em) in E. lia. }
  assert (Phi : phi v = true) by (apply (cnt_nth phi (snd bb) m v D2 Sv Em); lia).
  rewrite (split_all_spec s plo phi v D1 D2 Sub Plo Phi B 0 OK). cbn [bind].
  assert (Iv : exists b, In b B /\ In v (snd b)). { exists bb. split; auto. now apply nth_error_In with m. }
  replace (wcnt (lt_p v) B + (wcnt (le_p v) B - wcnt (lt_p v) B) + (wtot B - wcnt (le_p v) B) =? wtot B)%Z with true by lia.
  cbn [invariant bind].
  assert (Slo : forall x, plo x = true -> lt_p v x = true). { intros x Hx. unfold lt_p. destruct (Z_lt_le_dec x v); [lia|]. rewrite (D1 v x Hx) in Plo; [discriminate|lia]. }
  assert (Shi : forall x, le_p v x = true -> phi x = true). { intros x Hx. apply (D2 x v Phi). unfold le_p in Hx. lia. }
  assert (Slt : forall x, lt_p v x = true -> phi x = true). { intros x Hx. apply Shi. unfold lt_p, le_p in *. lia. }
  assert (Sle : forall x, plo x = true -> le_p v x = true). { intros x Hx. specialize (Slo x Hx). unfold lt_p, le_p in *. lia. }
  pose proof (cnt_nth (lt_p v) (snd bb) m v (lt_p_down v) Sv Em) as Cl. pose proof (cnt_nth (le_p v) (snd bb) m v (le_p_down v) Sv Em) as Cu.
  unfold lt_p at 1 in Cl. unfold le_p at 1 in Cu.
  destruct (Z.ltb target (wcnt (lt_p v) B)) eqn:C1; [|destruct (Z.ltb target (wcnt (lt_p v) B + (wcnt (le_p v) B - wcnt (lt_p v) B))) eqn:C2].
  - rewrite (narrow_upper_spec plo phi v B Slo). cbn [bind].
    replace (existsb _ B) with true.
    2: { symmetry. apply existsb_exists. exists bb. split; auto. lia. }
    cbn [invariant bind]. destruct (IH plo (lt_p v)) as (v' & R1 & R2 & R3); auto.
    + apply lt_p_down.
    + lia.
    + assert (rooms plo (lt_p v) B < rooms plo phi B). { apply rooms_lt with bb; auto.
        - pose proof (cnt_mono plo (lt_p v) (snd bb) ltac:(auto)). lia.
        - intros d _. pose proof (cnt_mono (lt_p v) phi (snd d) ltac:(auto)). lia. }
      lia.
    + exists v'. auto.
  - exists v. split; auto. split; auto. lia.
  - replace (target <? wcnt (lt_p v) B + (wcnt (le_p v) B - wcnt (lt_p v) B) + (wtot B - wcnt (le_p v) B))%Z with true by (pose proof (wcnt_wtot phi B); lia).
    rewrite (narrow_lower_spec plo phi v B Shi). cbn [bind].
    replace (existsb _ B) with true.
    2: { symmetry. apply existsb_exists. exists bb. split; auto. lia. }
    cbn [invariant bind]. destruct (IH (le_p v) phi) as (v' & R1 & R2 & R3); auto.
    + apply le_p_down.
    + lia.
    + assert (rooms (le_p v) phi B < rooms plo phi B). { apply rooms_lt with bb; auto.
        - pose proof (cnt_mono (le_p v) phi (snd bb) ltac:(auto)). lia.
        - intros d _. pose proof (cnt_mono plo (le_p v) (snd d) ltac:(auto)). lia. }
      lia.
    + exists v'. auto.
Qed.
