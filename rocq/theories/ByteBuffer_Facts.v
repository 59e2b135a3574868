(** Every call of the ByteBuffer model that returns does what the specification says. *)
From Coq Require Import List ZArith Bool Lia ZifyBool ZifyNat.
From Verif Require Import Common CommonFacts ListFacts ByteBuffer_Spec ByteBuffer_Model ByteBuffer_Proofs.
Import ListNotations.

Lemma upd_upd : forall (A : Type) (l : list A) i x y, upd (upd l i x) i y = upd l i y.
Proof. induction l as [|a l IH]; intros [|i] x y; cbn; congruence. Qed.
Lemma change_trans : forall s i s1 s2 (P Q R : bytes -> bytes -> Prop), change s i s1 P -> change s1 i s2 Q ->
  (forall a b c, P a b -> Q b c -> R a c) -> change s i s2 R.
Proof.
  intros s i s1 s2 P Q R (a & b & Ha & Hp & ->) (b' & c & Hb & Hq & ->) H.
  rewrite nth_error_upd_eq in Hb by (eapply nth_error_lt; eauto). injection Hb as <-.
  exists a, c. split; [exact Ha|]. split; [eauto|]. apply upd_upd.
Qed.
Lemma change_weaken : forall s i s' (P Q : bytes -> bytes -> Prop), (forall a b, P a b -> Q a b) -> change s i s' P -> change s i s' Q.
Proof. intros s i s' P Q H (a & b & Ha & Hp & ->). exists a, b. auto. Qed.
Lemma change_refl : forall s i c (P : bytes -> bytes -> Prop), nth_error s i = Some (Some c) -> P c c -> change s i s P.
Proof. intros s i c P H HP. exists c, c. split; [exact H|]. split; [exact HP|]. symmetry. now apply upd_same. Qed.

(** ** append *)
Lemma impl_write : forall b, implements (nc_write b) (fun c c' => c' = c ++ b).
Proof. intros b r r' W H. now apply write_spec in H. Qed.
Lemma impl_resize : forall g, implements (fun r => nc_resizeBuffer r (g r)) (fun c c' => c' = c).
Proof. intros g r r' W H. apply resize_spec in H; [|assumption]. tauto. Qed.

Lemma append_mem : forall w i b w', wf w -> append w i (Mem b) = Ok w' -> wf w' /\ change (abs w) i (abs w') (fun c c' => c' = c ++ b).
Proof.
  intros w i b w' W. unfold append. destruct (uniqueify w i) as [w1| | |] eqn:U; try discriminate. cbn [bind].
  pose proof (uniqueify_spec _ _ _ W U) as (W1 & Ab & _). rewrite <- Ab.
  destruct (rep_of w1 i) as [[id r]| | |]; try discriminate. cbn [bind src_len].
  destruct (nc_writeAvailable r <? length b).
  - cbn [bind]. destruct (mutate w1 i _) as [w2| | |] eqn:M; try discriminate. cbn [bind]. intros M2.
    apply (mutate_spec _ _ _ _ _ W1 (impl_resize (fun r0 => data_size r0 + (length b - nc_writeAvailable r)))) in M. destruct M as [W2 C1].
    apply (mutate_spec _ _ _ _ _ W2 (impl_write b)) in M2. destruct M2 as [W3 C2]. split; [exact W3|].
    eapply change_trans; [exact C1|exact C2|]. cbv beta; intros; subst; reflexivity.
  - cbn [bind]. intros M. now apply (mutate_spec _ _ _ _ _ W1 (impl_write b)) in M.
Qed.
Lemma append_ptr : forall w i sid pos n s b w', wf w -> nth_error (reps w) sid = Some s -> load s pos n = Ok b ->
  append w i (Ptr sid pos n) = Ok w' -> append w i (Mem b) = Ok w'.
Proof.
  intros w i sid pos n s b w' W Hs L. unfold append. destruct (uniqueify w i) as [w1| | |] eqn:U; try discriminate. cbn [bind].
  pose proof (uniqueify_spec _ _ _ W U) as (W1 & _ & _ & _ & K). pose proof (uniqueify_again _ _ _ W U) as U1.
  destruct (rep_of w1 i) as [[id r]| | |] eqn:R; try discriminate. cbn [bind src_len].
  pose proof (load_inv _ _ _ _ L) as [Lb _]. rewrite Lb.
  destruct (nc_writeAvailable r <? n).
  - destruct (sid =? id) eqn:E; [discriminate|]. cbn [bind].
    destruct (mutate w1 i _) as [w2| | |] eqn:M; try discriminate. cbn [bind].
    destruct (mutate_inv _ _ _ _ W1 M) as (u & id' & cow & q & q' & U' & _ & Hu & Hq & _ & _ & ->).
    assert (u = w1) by congruence. subst u.
    apply rep_of_inv in R. destruct R as (c & Hb & Hr). assert (id' = id) by congruence. subst id'.
    unfold get. cbn [reps set_rep]. rewrite nth_error_upd_neq by lia. rewrite (K _ _ Hs). cbn [bind]. rewrite L. cbn [bind]. auto.
  - cbn [bind]. unfold get. rewrite (K _ _ Hs). cbn [bind]. rewrite L. cbn [bind]. auto.
Qed.
Lemma append_buf : forall w i j p w', wf w -> readable_ptr w j = Ok p -> append w i p = Ok w' ->
  wf w' /\ exists d, nth_error (abs w) j = Some (Some d) /\ change (abs w) i (abs w') (fun c c' => c' = c ++ d).
Proof.
  intros w i j p w' W. unfold readable_ptr. destruct (rep_of w j) as [[id r]| | |] eqn:R; try discriminate. cbn [bind].
  intros J; injection J as <-. apply rep_of_inv in R. destruct R as (cow & Hb & Hr). intros A.
  pose proof (wf_nth _ _ _ W Hr) as Wr.
  assert (L : load r (front r) (nc_readAvailable r) = Ok (rd r)) by now apply readable_ok.
  eapply append_ptr in A; eauto. apply append_mem in A; [|assumption]. destruct A as [W' C]. split; [exact W'|].
  exists (rd r). split; [eapply abs_nth; eauto|exact C].
Qed.

(** ** Streams *)
(** Storing bytes that arrived after the readable part and extending. *)
Lemma deliver : forall w1 i id r got r' w3, wf w1 -> uniqueify w1 i = Ok w1 -> rep_of w1 i = Ok (id, r) ->
  store r (back r) got = Ok r' -> mutate (set_rep w1 id r') i (fun r => nc_extend r (length got)) = Ok w3 ->
  mutate w1 i (fun r => put_end r got) = Ok w3.
Proof.
  intros w1 i id r got r' w3 W U R S M.
  assert (M1 : mutate w1 i (fun r => store r (back r) got) = Ok (set_rep w1 id r')).
  { unfold mutate. rewrite U. cbn [bind]. rewrite R. cbn [bind]. rewrite S. reflexivity. }
  exact (mutate_mutate _ _ _ _ _ _ W M1 M).
Qed.
Lemma impl_put_end : forall b, implements (fun r => put_end r b) (fun c c' => c' = c ++ b).
Proof. intros b r r' W H. apply put_end_spec in H; [|assumption]. tauto. Qed.

Lemma firstn_plus : forall (A : Type) (l : list A) a b, firstn (a + b) l = firstn a l ++ firstn b (skipn a l).
Proof. induction l as [|x l IH]; intros [|a] b; cbn; try reflexivity; [now rewrite firstn_nil|]. f_equal. apply IH. Qed.

Lemma from_loop_spec : forall fuel w i amount s good n w' k rest c0, wf w -> nth_error (abs w) i = Some (Some c0) ->
  from_loop fuel w i amount s good n = Ok (w', k, rest) ->
  let m := if good then min (amount - n) (length s) else 0 in
  wf w' /\ k = n + m /\ rest = skipn m s /\ change (abs w) i (abs w') (fun c c' => c' = c ++ firstn m s).
Proof.
  induction fuel as [|f IH]; intros w i amount s good n w' k rest c0 W Hc; cbn [from_loop].
  - destruct (good && (n <? amount)) eqn:E; [discriminate|]. intros J; injection J as <- <- <-. cbv zeta.
    replace (if good then _ else 0) with 0 by (destruct good; lia). split; [exact W|]. split; [lia|]. split; [reflexivity|].
    eapply change_refl; [exact Hc|]. cbn. now rewrite app_nil_r.
  - destruct (good && (n <? amount)) eqn:E.
    + destruct (uniqueify w i) as [w1| | |] eqn:U; try discriminate. cbn [bind].
      pose proof (uniqueify_spec _ _ _ W U) as (W1 & Ab & _). rewrite <- Ab.
      destruct (rep_of w1 i) as [[id r]| | |] eqn:R; try discriminate. cbn [bind stream_read].
      unfold stream_read. cbn [fst snd].
      set (got := firstn (amount - n) s). destruct (store r (back r) got) as [r'| | |] eqn:S; try discriminate. cbn [bind].
      destruct (mutate (set_rep w1 id r') i _) as [w3| | |] eqn:M; try discriminate. cbn [bind].
      pose proof (deliver _ _ _ _ _ _ _ W1 (uniqueify_again _ _ _ W U) R S M) as D.
      apply (mutate_spec _ _ _ _ _ W1 (impl_put_end got)) in D. destruct D as [W3 C].
      intros F. pose proof C as (a & b & Ha & -> & Hb).
      eapply (IH w3) in F; [|exact W3|rewrite Hb; apply nth_error_upd_eq; eapply nth_error_lt; eauto].
      cbv zeta in *. destruct F as (W' & -> & -> & C2).
      assert (Lg : length got = min (amount - n) (length s)) by (unfold got; now rewrite firstn_length).
      assert (G : good = true) by (destruct good; [reflexivity|discriminate]). subst good.
      assert (Z0 : (if amount - n <=? length s then min (amount - (n + length got)) (length (skipn (amount - n) s)) else 0) = 0).
      { destruct (amount - n <=? length s) eqn:Q; lia. }
      rewrite Z0 in *. cbn [firstn skipn] in *.
      split; [exact W'|]. split; [lia|]. split.
      * destruct (Nat.le_ge_cases (amount - n) (length s)).
        -- now replace (min (amount - n) (length s)) with (amount - n) by lia.
        -- rewrite !skipn_all2 by lia. reflexivity.
      * eapply change_trans; [exact C|exact C2|]. intros x y z -> ->. rewrite app_nil_r. f_equal. unfold got.
        destruct (Nat.le_ge_cases (amount - n) (length s)).
        -- now replace (min (amount - n) (length s)) with (amount - n) by lia.
        -- rewrite !firstn_all2 by lia. reflexivity.
    + intros J; injection J as <- <- <-. cbv zeta.
      replace (if good then _ else 0) with 0 by (destruct good; lia). split; [exact W|]. split; [lia|]. split; [reflexivity|].
      eapply change_refl; [exact Hc|]. cbn. now rewrite app_nil_r.
Qed.

Lemma rep_of_abs : forall w i id r, rep_of w i = Ok (id, r) -> nth_error (abs w) i = Some (Some (rd r)).
Proof. intros w i id r H. apply rep_of_inv in H. destruct H as (cow & H & Hr). eapply abs_nth; eauto. Qed.

Lemma appendFrom_spec : forall w i amount s w' k rest, wf w -> appendFromStream w i amount s = Ok (w', k, rest) ->
  wf w' /\ k = min amount (length s) /\ rest = skipn amount s /\ change (abs w) i (abs w') (fun c c' => c' = c ++ firstn amount s).
Proof.
  intros w i amount s w' k rest W. unfold appendFromStream.
  destruct (rep_of w i) as [[id r]| | |] eqn:R; try discriminate. cbn [bind].
  assert (C : forall w1, (if nc_writeAvailable r <? amount
    then mutate w i (fun _r => nc_resizeBuffer _r (data_size r - nc_writeAvailable r + amount)) else Ok w) = Ok w1 ->
    wf w1 /\ change (abs w) i (abs w1) (fun c c' => c' = c)).
  { intros w1. destruct (_ <? amount).
    - intros M. now apply (mutate_spec _ _ _ _ _ W (impl_resize (fun _ => data_size r - nc_writeAvailable r + amount))) in M.
    - intros J; injection J as <-. split; [exact W|]. eapply change_refl; [eapply rep_of_abs; eauto|reflexivity]. }
  destruct (if nc_writeAvailable r <? amount then _ else _) as [w1| | |]; try discriminate. cbn [bind].
  destruct (C w1 eq_refl) as [W1 C1]. clear C.
  destruct (rep_of w1 i) as [[id1 r1]| | |] eqn:R1; try discriminate. cbn [bind].
  unfold invariant. destruct (amount <=? nc_writeAvailable r1); [|discriminate]. cbn [bind]. intros F.
  eapply from_loop_spec in F; [|exact W1|eapply rep_of_abs; eauto]. cbv zeta iota in F. rewrite Nat.sub_0_r in F.
  destruct F as (W' & -> & -> & C2). split; [exact W'|]. split; [lia|].
  destruct (Nat.le_ge_cases amount (length s)).
  - replace (min amount (length s)) with amount in * by lia. split; [reflexivity|].
    eapply change_trans; [exact C1|exact C2|]. cbv beta; intros; subst; reflexivity.
  - replace (min amount (length s)) with (length s) in * by lia. split; [now rewrite !skipn_all2 by lia|].
    eapply change_trans; [exact C1|exact C2|]. cbv beta; intros; subst. rewrite firstn_all, firstn_all2 by lia. reflexivity.
Qed.

(** The buffer at the end of appendEntireStream. *)
Definition full (w : world) (i max : nat) : Prop :=
  exists id r, rep_of w i = Ok (id, r) /\ nc_writeAvailable r = 0 /\ data_size r = max.
Definition bounded (w : world) (i max : nat) : Prop := exists id r, rep_of w i = Ok (id, r) /\ data_size r <= max.

Lemma mutate_bounded : forall w i f w' max, wf w -> mutate w i f = Ok w' ->
  (forall r r', wf_rep r -> data_size r <= max -> f r = Ok r' -> data_size r' <= max) -> bounded w i max -> bounded w' i max.
Proof.
  intros w i f w' max W M F (id0 & r0 & R0 & B0).
  destruct (mutate_inv _ _ _ _ W M) as (w1 & id & cow & r & r' & U & (W1 & Ab & _ & X & _) & H & Hr & A & E & ->).
  exists id, r'. split.
  - eapply rep_of_intro; [exact H|]. cbn. apply nth_error_upd_eq. eapply nth_error_lt; eauto.
  - apply (F r); auto; [eapply wf_nth; eauto|].
    destruct X as (id2 & cow2 & r2 & H2 & Hr2 & _ & O). assert (id2 = id) by congruence. subst id2. assert (r2 = r) by congruence. subst r2.
    destruct O as [->|(_ & F0 & Bk)].
    + apply rep_of_inv in R0. destruct R0 as (c & Hx & Hy). assert (r0 = r) by congruence. now subst.
    + pose proof (rep_of_abs _ _ _ _ R0) as A0. rewrite <- Ab in A0. erewrite abs_nth in A0 by eassumption.
      assert (Q : rd r = rd r0) by congruence. apply (f_equal (@length _)) in Q.
      apply rep_of_inv in R0. destruct R0 as (c & Hx & Hy).
      pose proof (wf_nth _ _ _ W Hy) as Y0. pose proof (wf_nth _ _ _ W1 Hr) as Y1.
      rewrite !rd_length in Q by assumption. unfold wf_rep in *. lia.
Qed.

Lemma entire_loop_spec : forall fuel ltr w i max s good n w' k rest c0, wf w -> nth_error (abs w) i = Some (Some c0) ->
  bounded w i max -> (good = false -> s = []) ->
  entire_loop fuel ltr w i max s good n = Ok (w', k, rest) ->
  wf w' /\ bounded w' i max /\ exists m, k = n + m /\ m <= length s /\ rest = skipn m s
    /\ change (abs w) i (abs w') (fun c c' => c' = c ++ firstn m s) /\ (rest = [] \/ full w' i max).
Proof.
  induction fuel as [|f IH]; intros ltr w i max s good n w' k rest c0 W Hc Hb Hg; cbn [entire_loop];
    (destruct good; [|intros J; injection J as <- <- <-; split; [exact W|]; split; [exact Hb|]; exists 0;
       rewrite Hg by reflexivity; repeat split; auto; try lia; eapply change_refl; [exact Hc|]; cbn; now rewrite app_nil_r]);
    [discriminate|].
  destruct (rep_of w i) as [[id0 r0]| | |] eqn:R0; try discriminate. cbn [bind].
  destruct (0 <? nc_writeAvailable r0) eqn:E0.
  - destruct (uniqueify w i) as [w1| | |] eqn:U; try discriminate. cbn [bind].
    pose proof (uniqueify_spec _ _ _ W U) as S1. pose proof S1 as (W1 & Ab & _).
    destruct (rep_of w1 i) as [[id r]| | |] eqn:R; try discriminate. cbn [bind].
    set (want := if ltr then nc_writeAvailable r else nc_writeAvailable r0). unfold stream_read.
    set (got := firstn want s). destruct (store r (back r) got) as [r'| | |] eqn:S; try discriminate. cbn [bind].
    destruct (mutate (set_rep w1 id r') i _) as [w3| | |] eqn:M; try discriminate. cbn [bind].
    pose proof (deliver _ _ _ _ _ _ _ W1 (uniqueify_again _ _ _ W U) R S M) as D.
    pose proof (mutate_spec _ _ _ _ _ W1 (impl_put_end got) D) as [W3 C]. rewrite Ab in C.
    assert (B3 : bounded w3 i max).
    { assert (B1 : mutate w i (fun r => Ok r) = Ok (set_rep w1 id r)).
      { unfold mutate. rewrite U. cbn [bind]. rewrite R. reflexivity. }
      assert (X : set_rep w1 id r = w1).
      { apply rep_of_inv in R. destruct R as (cc & _ & Hr). unfold set_rep. rewrite upd_same by assumption. destruct w1; reflexivity. }
      rewrite X in B1. eapply (mutate_bounded w1); [exact W1|exact D| |].
      - intros q q' Wq Lq P. apply put_end_spec in P; [|assumption]. lia.
      - eapply (mutate_bounded w); [exact W|exact B1| |exact Hb]. intros q q' _ Lq P. congruence. }
    intros F. pose proof C as (a & b & Ha & -> & Hb').
    eapply (IH _ w3) in F; [|exact W3|rewrite Hb'; apply nth_error_upd_eq; eapply nth_error_lt; eauto|exact B3|].
    2: { intros Q. apply skipn_all2. lia. }
    destruct F as (W' & B' & m & -> & Lm & -> & C2 & Fin). rewrite skipn_length in Lm.
    split; [exact W'|]. split; [exact B'|]. exists (length got + m).
    assert (Lg : length got = min want (length s)) by (unfold got; apply firstn_length).
    split; [lia|]. split; [lia|].
    assert (Sk : skipn want s = skipn (length got) s).
    { destruct (Nat.le_ge_cases want (length s)); [f_equal; lia|]. rewrite !skipn_all2 by lia. reflexivity. }
    split; [rewrite Sk, skipn_skipn; f_equal; lia|]. split; [|exact Fin].
    eapply change_trans; [exact C|exact C2|]. intros x y z -> ->. rewrite <- app_assoc. f_equal.
    rewrite firstn_plus, Sk. f_equal. unfold got at 1. rewrite Lg. destruct (Nat.le_ge_cases want (length s)).
    + f_equal. lia.
    + rewrite firstn_all2 by lia. symmetry. apply firstn_all2. lia.
  - destruct (data_size r0 <? max) eqn:E1.
    + destruct (mutate w i _) as [w1| | |] eqn:M; try discriminate. cbn [bind].
      pose proof (mutate_spec _ _ _ _ _ W (impl_resize (fun _ => min (data_size r0 * 2) max)) M) as [W1 C].
      assert (B1 : bounded w1 i max).
      { eapply (mutate_bounded w); [exact W|exact M| |exact Hb]. intros q q' Wq _ P. apply resize_spec in P; [|assumption]. lia. }
      intros F. pose proof C as (a & b & Ha & -> & Hb').
      eapply (IH _ w1) in F; [|exact W1|rewrite Hb'; apply nth_error_upd_eq; eapply nth_error_lt; eauto|exact B1|discriminate].
      destruct F as (W' & B' & m & -> & Lm & -> & C2 & Fin). split; [exact W'|]. split; [exact B'|]. exists m.
      repeat split; auto. eapply change_trans; [exact C|exact C2|]. cbv beta; intros; subst; reflexivity.
    + unfold invariant. destruct (data_size r0 =? max) eqn:E2; [|discriminate]. cbn [bind]. intros J; injection J as <- <- <-.
      split; [exact W|]. split; [exact Hb|]. exists 0. repeat split; try lia.
      * eapply change_refl; [exact Hc|]. cbn. now rewrite app_nil_r.
      * right. exists id0, r0. split; [exact R0|]. lia.
Qed.

Lemma appendEntire_spec : forall w ltr i max_size s w' k rest, wf w -> appendEntireStream w ltr i max_size s = Ok (w', k, rest) ->
  wf w' /\ k <= length s /\ rest = skipn k s /\ change (abs w) i (abs w') (fun c c' => c' = c ++ firstn k s)
  /\ (forall id r, rep_of w i = Ok (id, r) ->
        bounded w' i (max (data_size r) max_size) /\ (rest = [] \/ full w' i (max (data_size r) max_size))).
Proof.
  intros w ltr i max_size s w' k rest W. unfold appendEntireStream.
  destruct (rep_of w i) as [[id r]| | |] eqn:R; try discriminate. cbn [bind].
  assert (C : forall w1, (if data_size r =? 0 then mutate w i (fun r => nc_resizeBuffer r (min 1024 max_size)) else Ok w) = Ok w1 ->
    wf w1 /\ change (abs w) i (abs w1) (fun c c' => c' = c) /\
    forall id1 r1, rep_of w1 i = Ok (id1, r1) -> max (data_size r1) max_size = max (data_size r) max_size).
  { intros w1. destruct (data_size r =? 0) eqn:E.
    - intros M. pose proof (mutate_spec _ _ _ _ _ W (impl_resize (fun _ => min 1024 max_size)) M) as [W1 C1].
      split; [exact W1|]. split; [exact C1|]. intros id1 r1 R1.
      destruct (mutate_inv _ _ _ _ W M) as (u & d & c & q & q' & _ & (Wu & _) & Hu & Hq & _ & F & ->).
      apply rep_of_inv in R1. destruct R1 as (c1 & H1 & H2). cbn in H1, H2. assert (id1 = d) by congruence. subst id1.
      rewrite nth_error_upd_eq in H2 by (eapply nth_error_lt; eauto). injection H2 as <-.
      apply resize_spec in F; [|eapply wf_nth; eauto]. lia.
    - intros J; injection J as <-. split; [exact W|]. split; [eapply change_refl; [eapply rep_of_abs; eauto|reflexivity]|].
      intros id1 r1 R1. congruence. }
  destruct (if data_size r =? 0 then _ else _) as [w1| | |]; try discriminate. cbn [bind].
  destruct (C w1 eq_refl) as (W1 & C1 & D). clear C.
  destruct (rep_of w1 i) as [[id1 r1]| | |] eqn:R1; try discriminate. cbn [bind]. rewrite (D _ _ eq_refl). intros F.
  eapply entire_loop_spec in F; [|exact W1|eapply rep_of_abs; eauto| |discriminate].
  - destruct F as (W' & B & m & -> & Lm & -> & C2 & Fin). cbn [Nat.add]. split; [exact W'|]. split; [exact Lm|]. split; [reflexivity|]. split.
    + eapply change_trans; [exact C1|exact C2|]. cbv beta; intros; subst; reflexivity.
    + intros id' r' R'. injection R' as <- <-. auto.
  - exists id1, r1. split; [exact R1|]. specialize (D _ _ eq_refl). lia.
Qed.

(** ** One call *)
Lemma new_buf_spec : forall w cow, wf w -> wf (new_buf w cow) /\ abs (new_buf w cow) = abs w ++ [Some []].
Proof.
  intros w cow [W1 W2]. split.
  - split; cbn.
    + apply Forall_app. split; [assumption|]. constructor; [unfold wf_rep; cbn; lia|constructor].
    + apply Forall_app. split.
      * eapply Forall_impl; [|exact W2]. intros [[d c]|]; cbn; [rewrite app_length; cbn; lia|auto].
      * constructor; [cbn; rewrite app_length; cbn; lia|constructor].
  - unfold abs. cbn [bufs new_buf]. rewrite map_app. f_equal.
    + apply map_ext_in. intros h Hh. apply content_ext.
      * rewrite Forall_forall in W2. auto.
      * intros k r Hk. cbn. rewrite nth_error_app1 by (eapply nth_error_lt; eauto). assumption.
    + cbn. rewrite app_nth2, Nat.sub_diag by lia. reflexivity.
Qed.
Lemma abs_length : forall w, length (abs w) = length (bufs w).
Proof. intros w. apply map_length. Qed.
Lemma handle_abs : forall w i h, wf w -> handle w i = Ok h -> exists r, nth_error (reps w) (fst h) = Some r /\ nth_error (abs w) i = Some (Some (rd r)).
Proof.
  intros w i [id cow] W H. apply handle_inv in H. destruct (wf_lookup _ _ _ _ W H) as (r & Hr & _). exists r. split; [exact Hr|].
  eapply abs_nth; eauto.
Qed.
Lemma memequal_spec : forall a b e, memequal a b = Ok e -> (e = true <-> a = b).
Proof.
  induction a as [|[x|] a IH]; intros [|[y|] b] e; cbn [memequal]; try discriminate.
  - intros J; injection J as <-. split; reflexivity.
  - destruct (memequal a b) as [f| | |] eqn:M; try discriminate. cbn [bind]. intros J; injection J as <-.
    rewrite andb_true_iff, Z.eqb_eq, (IH _ _ M). split; [intros [-> ->]; reflexivity|intros J; injection J as -> ->; auto].
Qed.
Lemma upd_last : forall (A : Type) (l : list A) x y, upd (l ++ [x]) (length l) y = l ++ [y].
Proof. intros. apply upd_app_mid. Qed.

Lemma step_spec : forall w o w' r, wf w -> step w o = Ok (w', r) -> wf w' /\ spec_step (abs w) o r (abs w').
Proof.
  intros w o w' r W.
  assert (M : forall i f P, implements f P -> done (mutate w i f) = Ok (w', r) ->
     wf w' /\ r = Done /\ change (abs w) i (abs w') P).
  { intros i f P I. unfold done. destruct (mutate w i f) as [x| | |] eqn:E; try discriminate. cbn [bind].
    intros J; injection J as <- <-. pose proof (mutate_spec _ _ _ _ _ W I E). tauto. }
  destruct o; cbn [step spec_step].
  - (* New *) intros J; injection J as <- <-. destruct (new_buf_spec w cow W) as [W' A]. split; [exact W'|].
    rewrite abs_length. auto.
  - (* NewFrom *) destruct (append (new_buf w cow) (length (bufs w)) (Mem b)) as [w1| | |] eqn:A; try discriminate. cbn [bind].
    intros J; injection J as <- <-. destruct (new_buf_spec w cow W) as [W' Ab]. apply append_mem in A; [|exact W'].
    destruct A as [W1 (c & c' & Hc & -> & ->)]. split; [exact W1|]. split; [now rewrite abs_length|].
    rewrite Ab in *. rewrite <- (abs_length w) in *. rewrite nth_error_app2, Nat.sub_diag in Hc by lia. injection Hc as <-.
    apply upd_last.
  - (* Copy *) destruct (handle w i) as [h| | |] eqn:H; try discriminate. cbn [bind]. intros J; injection J as <- <-.
    destruct (handle_abs _ _ _ W H) as (q & Hq & Ha). destruct W as [W1 W2]. split.
    + split; [exact W1|]. cbn. apply Forall_app. split; [exact W2|]. constructor; [|constructor].
      destruct h as [d c]. cbn in *. eapply nth_error_lt; eauto.
    + split; [now rewrite abs_length|]. exists (rd q). split; [exact Ha|]. unfold abs. cbn [bufs reps]. rewrite map_app. f_equal.
      cbn. destruct h as [d c]. cbn in *. now erewrite nth_error_nth by exact Hq.
  - (* Set_ *) destruct (handle w i) as [hi| | |] eqn:Hi; try discriminate. cbn [bind].
    destruct (handle w j) as [h| | |] eqn:H; try discriminate. cbn [bind]. intros J; injection J as <- <-.
    destruct (handle_abs _ _ _ W H) as (q & Hq & Ha). destruct (handle_abs _ _ _ W Hi) as (qi & Hqi & Hai). split.
    + destruct W as [W1 W2]. split; [exact W1|]. cbn. rewrite Forall_forall in *. intros x Hx. apply In_nth_error in Hx.
      destruct Hx as [k Hk]. rewrite nth_error_upd in Hk. destruct ((i =? k) && _).
      * injection Hk as <-. destruct h as [d c]. cbn in *. eapply nth_error_lt; eauto.
      * apply nth_error_In in Hk. apply W2 in Hk. exact Hk.
    + split; [reflexivity|]. exists (rd q). split; [exact Ha|]. exists (rd qi), (rd q). split; [exact Hai|]. split; [reflexivity|].
      unfold abs. cbn [bufs reps]. apply nth_error_ext. intros k. rewrite nth_error_upd, map_length, !nth_error_map, nth_error_upd.
      destruct ((i =? k) && _); [|reflexivity]. cbn. destruct h as [d c]. cbn in *. now erewrite nth_error_nth by exact Hq.
  - (* Destroy *) destruct (handle w i) as [h| | |] eqn:H; try discriminate. cbn [bind]. intros J; injection J as <- <-.
    destruct (handle_abs _ _ _ W H) as (q & Hq & Ha). split.
    + destruct W as [W1 W2]. split; [exact W1|]. cbn. rewrite Forall_forall in *. intros x Hx. apply In_nth_error in Hx.
      destruct Hx as [k Hk]. rewrite nth_error_upd in Hk. destruct ((i =? k) && _); [injection Hk as <-; exact I|].
      apply nth_error_In in Hk. apply W2 in Hk. exact Hk.
    + split; [reflexivity|]. split; [eauto|]. unfold abs. cbn [bufs reps]. apply nth_error_ext. intros k.
      rewrite nth_error_upd, map_length, !nth_error_map, nth_error_upd. destruct ((i =? k) && _); reflexivity.
  - (* Consume *) apply M. intros q q' Wq H. now apply consume_spec in H.
  - (* Write *) apply M. apply impl_write.
  - (* WriteExtend *) destruct (mutate w i _) as [w1| | |] eqn:E; try discriminate. cbn [bind]. unfold done.
    destruct (mutate w1 i _) as [w2| | |] eqn:E2; try discriminate. cbn [bind]. intros J; injection J as <- <-.
    pose proof (mutate_mutate _ _ _ _ _ _ W E E2) as X. eapply mutate_spec in X; [|exact W|].
    + destruct X as [X1 X2]. split; [exact X1|]. split; [reflexivity|exact X2].
    + intros q q' Wq. cbv beta. unfold nc_extend at 1, invariant. cbn [Nat.leb bind]. rewrite Nat.add_0_r. cbn [back].
      assert (Eq : {| data := data q; front := front q; back := back q |} = q) by (destruct q; reflexivity). rewrite Eq.
      destruct (store q (back q) b) as [q1| | |] eqn:S; try discriminate. cbn [bind]. intros X1.
      pose proof (store_spec _ _ _ _ S) as (Fs & Bs & Ds & Cs & Cs0).
      assert (Wq1 : wf_rep q1) by (unfold wf_rep in *; lia).
      pose proof (extend_spec _ _ _ Wq1 X1) as [Wq' _]. split; [exact Wq'|]. intros Ln.
      destruct (store_inv _ _ _ _ S) as [Sp|Sp].
      2: { subst b. cbn in Ln. assert (n = 0) by lia. subst n. unfold nc_extend, invariant in X1. cbn [Nat.leb bind] in X1.
           injection X1 as <-. cbn. rewrite app_nil_r. unfold rd. cbn. unfold cells at 1. cbn. fold (cells q1).
           rewrite Cs0 by reflexivity. rewrite Fs, Bs, Nat.add_0_r. reflexivity. }
      unfold nc_extend, invariant in X1. destruct (n <=? nc_writeAvailable q1) eqn:Y; [|discriminate]. cbn [bind] in X1. injection X1 as <-.
      specialize (Cs Sp). rewrite data_size_cells in *. unfold wf_rep in Wq. rewrite data_size_cells in Wq.
      apply rd_ext; [exact Wq'| |].
      * rewrite app_length, firstn_length, rd_length by (unfold wf_rep; rewrite data_size_cells; exact Wq). cbn. lia.
      * intros k Hk. rewrite app_length, firstn_length, rd_length in Hk by (unfold wf_rep; rewrite data_size_cells; exact Wq).
        change (cells {| data := data q1; front := front q1; back := back q1 + n |}) with (cells q1). cbn [front].
        rewrite Cs, blit_nth by lia. rewrite app_nth, rd_length by (unfold wf_rep; rewrite data_size_cells; exact Wq).
        destruct (k <? back q - front q) eqn:G.
        -- replace (back q <=? front q1 + k) with false by lia. cbn [andb].
           rewrite rd_nth by (unfold wf_rep; rewrite ?data_size_cells; lia). f_equal. lia.
        -- replace ((back q <=? front q1 + k) && (front q1 + k <? back q + length b)) with true by lia.
           rewrite nth_error_firstn_lt by lia. f_equal. lia.
  - (* Extend *) apply M. intros q q' Wq H. now apply extend_spec in H.
  - (* Unextend *) apply M. intros q q' Wq H. now apply unextend_spec in H.
  - (* Poke *) apply M. intros q q' Wq H. now apply poke_spec in H.
  - (* Append *) unfold done. destruct (append w i (Mem b)) as [w1| | |] eqn:A; try discriminate. cbn [bind]. intros J; injection J as <- <-.
    apply append_mem in A; [|exact W]. tauto.
  - (* AppendBuf *) destruct (readable_ptr w j) as [p| | |] eqn:P; try discriminate. cbn [bind]. unfold done.
    destruct (append w i p) as [w1| | |] eqn:A; try discriminate. cbn [bind]. intros J; injection J as <- <-.
    destruct (append_buf _ _ _ _ _ W P A) as [W' H]. auto.
  - (* Replace *) destruct (rep_of w i) as [[id q]| | |] eqn:R; try discriminate. cbn [bind].
    unfold invariant. destruct (_ <=? _)%Z eqn:E; [|discriminate]. cbn [bind]. intros D.
    eapply (M _ _ (fun c c' => (off < 0)%Z \/ c' = over c (Z.to_nat off) b)) in D.
    + destruct D as (W' & -> & C). split; [exact W'|]. split; [reflexivity|].
      destruct C as (c & c' & Hc & Hp & Hs). exists c, c'. split; [exact Hc|]. split; [|exact Hs]. intros O1 O2.
      rewrite Z.mod_small in E by lia. destruct Hp as [O3|Hp]; [lia|]. split; [|exact Hp].
      rewrite (rep_of_abs _ _ _ _ R) in Hc. injection Hc as <-.
      apply rep_of_inv in R. destruct R as (cc & _ & Hr). rewrite rd_length by exact (wf_nth _ _ _ W Hr). unfold nc_readAvailable in E. lia.
    + intros x x' Wx. destruct ((off <? 0)%Z || _) eqn:O; [discriminate|]. intros H. apply poke_spec in H; [|exact Wx].
      split; [tauto|]. right. tauto.
  - (* Resize *) apply M. intros q q' Wq H. apply resize_spec in H; [|assumption]. tauto.
  - (* Shift *) apply M. intros q q' Wq H. apply shift_spec in H; [|assumption]. tauto.
  - (* Reset *) apply M. intros q q' Wq H. injection H as <-. unfold wf_rep, rd, data_size in *. cbn. split; [lia|reflexivity].
  - (* Purge *) apply M. intros q q' Wq H. injection H as <-. unfold wf_rep, rd, data_size in *. cbn. split; [lia|reflexivity].
  - (* Detach *) destruct (handle w i) as [[id cow]| | |] eqn:H; try discriminate. cbn [bind]. intros J; injection J as <- <-.
    destruct (handle_abs _ _ _ W H) as (q & Hq & Ha). split.
    + destruct W as [W1 W2]. split; cbn.
      * apply Forall_app. split; [assumption|]. constructor; [unfold wf_rep; cbn; lia|constructor].
      * rewrite Forall_forall in *. intros x Hx. apply In_nth_error in Hx. destruct Hx as [k Hk]. rewrite nth_error_upd in Hk.
        destruct ((i =? k) && _); [injection Hk as <-; cbn; rewrite app_length; cbn; lia|].
        apply nth_error_In in Hk. apply W2 in Hk. destruct x as [[d c]|]; cbn in *; [rewrite app_length; cbn; lia|exact I].
    + split; [reflexivity|]. exists (rd q), []. split; [exact Ha|]. split; [reflexivity|].
      unfold abs. cbn [bufs]. apply nth_error_ext. intros k. rewrite nth_error_upd, map_length, !nth_error_map, nth_error_upd.
      destruct ((i =? k) && _).
      * cbn. rewrite app_nth2, Nat.sub_diag by lia. reflexivity.
      * destruct (nth_error (bufs w) k) as [h|] eqn:Hk; [|reflexivity]. cbn [option_map]. f_equal. apply content_ext.
        -- destruct W as [_ W2]. rewrite Forall_forall in W2. apply W2. eapply nth_error_In; eauto.
        -- intros k' r' Hk'. cbn. rewrite nth_error_app1 by (eapply nth_error_lt; eauto). assumption.
  - (* Assign *) destruct (mutate w i nc_reset) as [w1| | |] eqn:E; try discriminate. cbn [bind]. unfold done.
    destruct (append w1 i (Mem b)) as [w2| | |] eqn:A; try discriminate. cbn [bind]. intros J; injection J as <- <-.
    apply (mutate_spec _ _ _ _ (fun c c' => c' = [])) in E; [|exact W|].
    + destruct E as [W1 C1]. apply append_mem in A; [|exact W1]. destruct A as [W2 C2]. split; [exact W2|]. split; [reflexivity|].
      eapply change_trans; [exact C1|exact C2|]. intros x y z -> ->. reflexivity.
    + intros q q' Wq H. injection H as <-. unfold wf_rep, rd, data_size in *. cbn. split; [lia|reflexivity].
  - (* AssignBuf *) destruct (mutate w i nc_reset) as [w1| | |] eqn:E; try discriminate. cbn [bind].
    destruct (readable_ptr w1 j) as [p| | |] eqn:P; try discriminate. cbn [bind]. unfold done.
    destruct (append w1 i p) as [w2| | |] eqn:A; try discriminate. cbn [bind]. intros J; injection J as <- <-.
    apply (mutate_spec _ _ _ _ (fun c c' => c' = [])) in E; [|exact W|].
    + destruct E as [W1 C1]. destruct (append_buf _ _ _ _ _ W1 P A) as [W2 (d & Hd & C2)]. split; [exact W2|]. split; [reflexivity|].
      destruct (Nat.eq_dec i j) as [->|Ne].
      * pose proof C1 as (x & y & Hx & _ & _). exists x. split; [exact Hx|].
        eapply change_trans; [exact C1|exact C2|]. intros; congruence.
      * exists d. split.
        -- destruct C1 as (x & y & Hx & -> & Hs). rewrite Hs in Hd. rewrite nth_error_upd_neq in Hd by exact Ne. exact Hd.
        -- eapply change_trans; [exact C1|exact C2|]. intros x y z -> -> _. reflexivity.
    + intros q q' Wq H. injection H as <-. unfold wf_rep, rd, data_size in *. cbn. split; [lia|reflexivity].
  - (* ForceUnique *) unfold done. destruct (forceUnique w i) as [w1| | |] eqn:E; try discriminate. cbn [bind]. intros J; injection J as <- <-.
    destruct (forceUnique_spec _ _ _ W E) as (W' & Ab & _ & (id & cow & q & H & Hq & _) & _). split; [exact W'|]. split; [reflexivity|].
    rewrite <- Ab. eapply change_refl; [eapply abs_nth; eauto|reflexivity].
  - (* AppendFrom *) destruct (appendFromStream w i amount stream) as [[[w1 k] rest]| | |] eqn:E; try discriminate. cbn [bind].
    intros J; injection J as <- <-. apply appendFrom_spec in E; [|exact W]. destruct E as (W' & -> & -> & C). auto.
  - (* AppendEntire *) destruct (appendEntireStream w ltr i max stream) as [[[w1 k] rest]| | |] eqn:E; try discriminate. cbn [bind].
    intros J; injection J as <- <-. apply appendEntire_spec in E; [|exact W]. destruct E as (W' & Lk & -> & C & _).
    split; [exact W'|]. exists k. auto.
  - (* ReadAvailable *) destruct (rep_of w i) as [[id q]| | |] eqn:R; try discriminate. cbn [bind]. intros J; injection J as <- <-.
    split; [exact W|]. split; [reflexivity|]. exists (rd q). split; [eapply rep_of_abs; eauto|].
    apply rep_of_inv in R. destruct R as (c & _ & Hq). rewrite rd_length by (eapply wf_nth; eauto). reflexivity.
  - (* WriteAvailable *) destruct (rep_of w i) as [[id q]| | |] eqn:R; try discriminate. cbn [bind]. intros J; injection J as <- <-.
    split; [exact W|]. split; [reflexivity|]. exists (rd q). split; [eapply rep_of_abs; eauto|]. eauto.
  - (* BufferSize *) destruct (rep_of w i) as [[id q]| | |] eqn:R; try discriminate. cbn [bind]. intros J; injection J as <- <-.
    split; [exact W|]. split; [reflexivity|]. exists (rd q). split; [eapply rep_of_abs; eauto|]. eexists. split; [reflexivity|].
    apply rep_of_inv in R. destruct R as (c & _ & Hq). apply (wf_nth _ _ _ W) in Hq. rewrite rd_length by assumption. unfold wf_rep in Hq. lia.
  - (* Empty *) destruct (rep_of w i) as [[id q]| | |] eqn:R; try discriminate. cbn [bind]. intros J; injection J as <- <-.
    split; [exact W|]. split; [reflexivity|]. exists (rd q). split; [eapply rep_of_abs; eauto|]. eexists. split; [reflexivity|].
    apply rep_of_inv in R. destruct R as (c & _ & Hq). apply (wf_nth _ _ _ W) in Hq. unfold nc_empty.
    pose proof (rd_length q Hq) as L. unfold wf_rep in Hq. split.
    + intros E. apply length_zero_iff_nil. lia.
    + intros E. rewrite E in L. cbn in L. lia.
  - (* AsString *) destruct (rep_of w i) as [[id q]| | |] eqn:R; try discriminate. cbn [bind].
    pose proof R as R'. apply rep_of_inv in R'. destruct R' as (c & _ & Hq). apply (wf_nth _ _ _ W) in Hq. rewrite readable_ok by assumption. cbn [bind].
    intros J; injection J as <- <-. split; [exact W|]. split; [reflexivity|]. exists (rd q). split; [eapply rep_of_abs; eauto|reflexivity].
  - (* Equal *) destruct (rep_of w i) as [[id q]| | |] eqn:R; try discriminate. cbn [bind].
    destruct (rep_of w j) as [[jd p]| | |] eqn:Rj; try discriminate. cbn [bind].
    pose proof (rep_of_abs _ _ _ _ R) as A1. pose proof (rep_of_abs _ _ _ _ Rj) as A2.
    apply rep_of_inv in R. destruct R as (c & _ & Hq). apply rep_of_inv in Rj. destruct Rj as (c' & _ & Hp).
    pose proof (wf_nth _ _ _ W Hq) as Wq. pose proof (wf_nth _ _ _ W Hp) as Wp.
    unfold nc_readAvailable. destruct (back q - front q =? back p - front p) eqn:E; cbn [negb].
    + destruct (id =? jd) eqn:E2.
      * intros J; injection J as <- <-. split; [exact W|]. split; [reflexivity|]. exists (rd q). split; [exact A1|].
        exists (rd p). split; [exact A2|]. exists true. split; [reflexivity|]. split; [|reflexivity]. intros _.
        assert (id = jd) by lia. congruence.
      * rewrite !readable_ok by assumption. cbn [bind]. destruct (memequal (rd q) (rd p)) as [e| | |] eqn:Me; try discriminate. cbn [bind].
        intros J; injection J as <- <-. split; [exact W|]. split; [reflexivity|]. exists (rd q). split; [exact A1|].
        exists (rd p). split; [exact A2|]. exists e. split; [reflexivity|]. now apply memequal_spec.
    + intros J; injection J as <- <-. split; [exact W|]. split; [reflexivity|]. exists (rd q). split; [exact A1|].
      exists (rd p). split; [exact A2|]. exists false. split; [reflexivity|]. split; [discriminate|]. intros Eq.
      apply (f_equal (@length _)) in Eq. rewrite !rd_length in Eq by assumption. lia.
Qed.
