(** Lemmas about the ByteBuffer model. *)
From Coq Require Import List ZArith Bool Lia ZifyBool ZifyNat.
From Verif Require Import Common CommonFacts ListFacts ByteBuffer_Spec ByteBuffer_Model.
Import ListNotations.

(** ** Storage *)
Definition cells (r : rep) : bytes := match data r with Some d => d | None => [] end.
Definition wf_rep (r : rep) : Prop := front r <= back r <= data_size r.
Definition rd (r : rep) : bytes := firstn (back r - front r) (skipn (front r) (cells r)).

Lemma data_size_cells : forall r, data_size r = length (cells r).
Proof. intros r. unfold data_size, cells. destruct (data r); reflexivity. Qed.
Lemma rd_length : forall r, wf_rep r -> length (rd r) = back r - front r.
Proof. intros r H. unfold wf_rep in H. rewrite data_size_cells in H. unfold rd. rewrite firstn_length, skipn_length. lia. Qed.
Lemma load_ok : forall r pos n, pos + n <= data_size r -> load r pos n = Ok (firstn n (skipn pos (cells r))).
Proof.
  intros r pos n H. unfold load, data_size, cells in *. destruct (data r) as [d|].
  - replace (pos + n <=? length d) with true by lia. reflexivity.
  - assert (n = 0) by lia. subst. reflexivity.
Qed.
Lemma load_inv : forall r pos n b, load r pos n = Ok b -> length b = n /\ b = firstn n (skipn pos (cells r)).
Proof.
  intros r pos n b. unfold load, cells. destruct (data r) as [d|].
  - destruct (pos + n <=? length d) eqn:E; [|discriminate]. intros H; injection H as <-.
    rewrite firstn_length, skipn_length. split; [lia|reflexivity].
  - destruct (n =? 0) eqn:E; [|discriminate]. intros H; injection H as <-. replace n with 0 by lia. split; reflexivity.
Qed.
Lemma readable_ok : forall r, wf_rep r -> nc_readable r = Ok (rd r).
Proof.
  intros r H. unfold nc_readable, nc_readAvailable. unfold wf_rep in H. rewrite load_ok by lia. reflexivity.
Qed.

Definition blit (d : bytes) (pos : nat) (b : bytes) : bytes := firstn pos d ++ b ++ skipn (pos + length b) d.
Lemma blit_length : forall d pos b, pos + length b <= length d -> length (blit d pos b) = length d.
Proof. intros. unfold blit. rewrite !app_length, firstn_length, skipn_length. lia. Qed.
Lemma blit_nth : forall d pos b k, pos + length b <= length d ->
  nth_error (blit d pos b) k = if (pos <=? k) && (k <? pos + length b) then nth_error b (k - pos) else nth_error d k.
Proof.
  intros d pos b k H. unfold blit.
  destruct (pos <=? k) eqn:E1; cbn [andb].
  - rewrite nth_error_app2 by (rewrite firstn_length; lia). rewrite firstn_length. replace (min pos (length d)) with pos by lia.
    destruct (k <? pos + length b) eqn:E2.
    + rewrite nth_error_app1 by lia. reflexivity.
    + rewrite nth_error_app2 by lia. rewrite nth_error_skipn. f_equal. lia.
  - rewrite nth_error_app1 by (rewrite firstn_length; lia). apply nth_error_firstn_lt. lia.
Qed.

Lemma store_inv : forall r pos b r', store r pos b = Ok r' ->
  pos + length b <= data_size r \/ b = [].
Proof.
  intros r pos b r'. unfold store, data_size. destruct (data r) as [d|].
  - destruct (pos + length b <=? length d) eqn:E; [|discriminate]. intros _. left. lia.
  - destruct (length b =? 0) eqn:E; [|discriminate]. intros _. right. destruct b; [reflexivity|discriminate].
Qed.
(** The part of store that matters: cells are overwritten, indices kept. *)
Lemma store_spec : forall r pos b r', store r pos b = Ok r' ->
  front r' = front r /\ back r' = back r /\ data_size r' = data_size r
  /\ (pos + length b <= data_size r -> cells r' = blit (cells r) pos b)
  /\ (b = [] -> cells r' = cells r).
Proof.
  intros r pos b r'. rewrite !data_size_cells. unfold store, cells. destruct (data r) as [d|] eqn:D.
  - destruct (pos + length b <=? length d) eqn:E; [|discriminate]. intros H; injection H as <-. cbn [front back data].
    repeat split.
    + apply blit_length. lia.
    + intros ->. cbn. rewrite Nat.add_0_r. apply firstn_skipn.
  - destruct (length b =? 0) eqn:E; [|discriminate]. intros H; injection H as <-. rewrite D.
    assert (b = []) by (destruct b; [reflexivity|discriminate]). subst. repeat split.
    intros _. unfold blit. now rewrite firstn_nil, skipn_nil.
Qed.
Lemma store_ok : forall r pos b, pos + length b <= data_size r -> exists r', store r pos b = Ok r'.
Proof.
  intros r pos b H. unfold store, data_size in *. destruct (data r) as [d|].
  - replace (pos + length b <=? length d) with true by lia. eauto.
  - replace (length b =? 0) with true by lia. eauto.
Qed.

Lemma rd_nth : forall r k, wf_rep r -> k < back r - front r -> nth_error (rd r) k = nth_error (cells r) (front r + k).
Proof. intros r k H Hk. unfold rd. rewrite nth_error_firstn_lt by assumption. apply nth_error_skipn. Qed.
Lemma rd_ext : forall r c, wf_rep r -> length c = back r - front r ->
  (forall k, k < length c -> nth_error (cells r) (front r + k) = nth_error c k) -> rd r = c.
Proof.
  intros r c H Hl Hk. apply nth_error_ext. intros k. destruct (Nat.lt_ge_cases k (length c)) as [L|L].
  - rewrite rd_nth by (assumption || lia). now apply Hk.
  - rewrite !(proj2 (nth_error_None _ _)); [reflexivity|lia|rewrite rd_length by assumption; lia].
Qed.

Lemma app_nth : forall (a b : bytes) k, nth_error (a ++ b) k = if k <? length a then nth_error a k else nth_error b (k - length a).
Proof.
  intros a b k. destruct (k <? length a) eqn:E; [apply nth_error_app1|apply nth_error_app2]; lia.
Qed.

Lemma consume_spec : forall n r r', wf_rep r -> nc_consume r n = Ok r' ->
  wf_rep r' /\ (n <= length (rd r) /\ rd r' = skipn n (rd r)).
Proof.
  intros n r r' H. unfold nc_consume. destruct (n <=? nc_readAvailable r) eqn:E; [|discriminate].
  unfold nc_readAvailable in E. unfold wf_rep in H.
  intros J; injection J as <-.
  assert (W : wf_rep {| data := data r; front := front r + n; back := back r |}).
  { unfold wf_rep, data_size in *; cbn in *. lia. }
  split; [exact W|]. rewrite rd_length by exact H. split; [lia|]. apply rd_ext; [assumption| |].
  - rewrite skipn_length, rd_length by assumption. cbn. lia.
  - intros k Hk. rewrite skipn_length, rd_length in Hk by assumption. rewrite nth_error_skipn, rd_nth by (assumption || lia).
    unfold cells; cbn. f_equal. lia.
Qed.
Lemma extend_spec : forall n r r', wf_rep r -> nc_extend r n = Ok r' ->
  wf_rep r' /\ exists junk, length junk = n /\ rd r' = rd r ++ junk.
Proof.
  intros n r r' H. unfold nc_extend, invariant. destruct (n <=? nc_writeAvailable r) eqn:E; [|discriminate]. cbn [bind].
  unfold nc_writeAvailable in E. intros J; injection J as <-.
  assert (W : wf_rep {| data := data r; front := front r; back := back r + n |}).
  { unfold wf_rep, data_size in *; cbn in *. lia. }
  split; [exact W|]. exists (firstn n (skipn (back r) (cells r))). unfold wf_rep in H. rewrite ?data_size_cells in *.
  assert (L : length (firstn n (skipn (back r) (cells r))) = n) by (rewrite firstn_length, skipn_length; lia).
  split; [exact L|]. apply rd_ext; [assumption| |].
  - rewrite app_length, L, rd_length by (unfold wf_rep; rewrite data_size_cells; assumption). cbn. lia.
  - intros k Hk. rewrite app_length, L in Hk. rewrite app_nth.
    rewrite rd_length in * by (unfold wf_rep; rewrite data_size_cells; assumption).
    destruct (k <? back r - front r) eqn:F.
    + rewrite rd_nth by (unfold wf_rep; rewrite ?data_size_cells; lia). reflexivity.
    + rewrite nth_error_firstn_lt by lia. rewrite nth_error_skipn. unfold cells; cbn. f_equal. lia.
Qed.
Lemma unextend_spec : forall n r r', wf_rep r -> nc_unextend r n = Ok r' ->
  wf_rep r' /\ (n <= length (rd r) /\ rd r' = firstn (length (rd r) - n) (rd r)).
Proof.
  intros n r r' H. unfold nc_unextend, invariant. destruct (n <=? nc_readAvailable r) eqn:E; [|discriminate]. cbn [bind].
  unfold nc_readAvailable in E. intros J; injection J as <-. rewrite rd_length by assumption. unfold wf_rep in H.
  split; [unfold wf_rep, data_size in *; cbn in *; lia|]. split; [lia|].
  unfold rd. cbn. unfold cells. cbn. rewrite firstn_firstn. f_equal. lia.
Qed.

(** Write b at the end of the readable part and make it readable. *)
Definition put_end (r : rep) (b : bytes) : res rep := let! r := store r (back r) b in nc_extend r (length b).
Lemma put_end_spec : forall b r r', wf_rep r -> put_end r b = Ok r' ->
  wf_rep r' /\ rd r' = rd r ++ b /\ data_size r' = data_size r /\ back r' = back r + length b.
Proof.
  intros b r r' H. unfold put_end. destruct (store r (back r) b) as [r1| | |] eqn:S; try discriminate. cbn [bind].
  pose proof (store_spec _ _ _ _ S) as (F & B & D & C & C0).
  intros X. assert (W1 : wf_rep r1) by (unfold wf_rep in *; lia).
  pose proof (extend_spec _ _ _ W1 X) as (W' & _).
  unfold nc_extend, invariant in X. destruct (length b <=? nc_writeAvailable r1) eqn:E; [|discriminate]. cbn [bind] in X.
  unfold nc_writeAvailable in E. injection X as <-. split; [exact W'|].
  assert (C' : cells r1 = blit (cells r) (back r) b) by (apply C; unfold wf_rep in H; lia).
  unfold wf_rep in H. rewrite ?data_size_cells in *.
  split; [|split; [unfold data_size, cells in *; cbn; lia|cbn; lia]].
  apply rd_ext; [assumption| |].
  - rewrite app_length, rd_length by (unfold wf_rep; rewrite data_size_cells; assumption). cbn. lia.
  - intros k Hk. rewrite app_length in Hk. rewrite rd_length in Hk by (unfold wf_rep; rewrite data_size_cells; assumption).
    change (cells {| data := data r1; front := front r1; back := back r1 + length b |}) with (cells r1).
    cbn [front]. rewrite C', blit_nth by lia. rewrite app_nth.
    rewrite rd_length by (unfold wf_rep; rewrite data_size_cells; assumption).
    destruct (k <? back r - front r) eqn:G.
    + replace (back r <=? front r1 + k) with false by lia. cbn [andb].
      rewrite rd_nth by (unfold wf_rep; rewrite ?data_size_cells; lia). f_equal. lia.
    + replace ((back r <=? front r1 + k) && (front r1 + k <? back r + length b)) with true by lia. f_equal. lia.
Qed.
Lemma put_end_ok : forall r b, wf_rep r -> length b <= nc_writeAvailable r -> exists r', put_end r b = Ok r'.
Proof.
  intros r b H Hb. unfold put_end. unfold nc_writeAvailable in Hb. destruct (store_ok r (back r) b) as [r1 S]; [unfold wf_rep in H; lia|].
  rewrite S. cbn [bind]. apply store_spec in S. destruct S as (F & B & D & _). unfold nc_extend, invariant, nc_writeAvailable.
  replace (length b <=? data_size r1 - back r1) with true by lia. cbn. eauto.
Qed.
Lemma nc_write_put_end : forall b r r', nc_write b r = Ok r' -> put_end r b = Ok r'.
Proof.
  intros b r r'. unfold nc_write, put_end, nc_extend, invariant, nc_writeAvailable, store, data_size.
  destruct (length b <=? _ - back r) eqn:E; [|discriminate]. cbn [bind data front back].
  destruct (data r) as [d|] eqn:D.
  - destruct (back r + length b <=? length d) eqn:F; [|discriminate].
    intros H; injection H as <-. cbn [bind data back front].
    rewrite !app_length, firstn_length, skipn_length.
    replace (length b <=? _ - back r) with true by lia. reflexivity.
  - destruct (length b =? 0) eqn:F; [|discriminate]. intros H; injection H as <-. cbn [bind]. rewrite D.
    rewrite E. reflexivity.
Qed.
Lemma put_end_nc_write : forall b r r', put_end r b = Ok r' -> nc_write b r = Ok r'.
Proof.
  intros b r r'. unfold nc_write, put_end, nc_extend, invariant, nc_writeAvailable, store, data_size.
  destruct (data r) as [d|] eqn:D.
  - destruct (back r + length b <=? length d) eqn:F; [|discriminate]. cbn [bind data back front].
    rewrite !app_length, firstn_length, skipn_length.
    replace (min (back r) (length d) + (length b + (length d - (back r + length b)))) with (length d) by lia.
    replace (length b <=? length d - back r) with true by lia. cbn [bind data front back].
    intros H; injection H as <-. cbn [bind data front back]. rewrite ?F. reflexivity.
  - destruct (length b =? 0) eqn:F; [|discriminate]. cbn [bind]. rewrite D.
    destruct (length b <=? _) eqn:G; [|discriminate]. cbn [bind data front back]. rewrite ?D, ?F. auto.
Qed.
Lemma write_spec : forall b r r', wf_rep r -> nc_write b r = Ok r' -> wf_rep r' /\ rd r' = rd r ++ b.
Proof. intros b r r' H W. apply nc_write_put_end in W. apply put_end_spec in W; [|assumption]. tauto. Qed.

Lemma shift_spec : forall r r', wf_rep r -> nc_shift r = Ok r' -> wf_rep r' /\ rd r' = rd r /\ data_size r' = data_size r /\ front r' = 0.
Proof.
  intros r r' H. unfold nc_shift, nc_empty. destruct (front r =? back r) eqn:E.
  - intros J; injection J as <-. unfold wf_rep, rd, data_size in *. cbn. replace (back r - front r) with 0 by lia.
    repeat split; lia.
  - destruct (0 <? front r) eqn:F.
    + unfold nc_readAvailable. unfold wf_rep in H. rewrite load_ok by lia. cbn [bind]. fold (rd r).
      destruct (store r 0 (rd r)) as [r1| | |] eqn:S; try discriminate. cbn [bind]. intros J; injection J as <-.
      pose proof (store_spec _ _ _ _ S) as (_ & _ & D & C & _).
      assert (L : length (rd r) = back r - front r) by (apply rd_length; exact H).
      assert (W : wf_rep {| data := data r1; front := 0; back := back r - front r |}).
      { unfold wf_rep. cbn. change (0 <= back r - front r <= data_size r1). lia. }
      split; [exact W|]. split; [|split; [exact D|reflexivity]]. apply rd_ext; [exact W|cbn; lia|].
      intros k Hk. cbn [front]. change (cells {| data := data r1; front := 0; back := back r - front r |}) with (cells r1).
      rewrite C by lia. rewrite data_size_cells in H. rewrite blit_nth by lia.
      replace ((0 <=? 0 + k) && (0 + k <? 0 + length (rd r))) with true by lia. f_equal. lia.
    + intros J; injection J as <-. repeat split; auto; try lia; unfold wf_rep in *; lia.
Qed.
Lemma shift_ok : forall r, wf_rep r -> exists r', nc_shift r = Ok r'.
Proof.
  intros r H. unfold nc_shift. destruct (nc_empty r); [eauto|]. destruct (0 <? front r); [|eauto].
  unfold nc_readAvailable. unfold wf_rep in H. rewrite load_ok by lia. cbn [bind]. fold (rd r).
  destruct (store_ok r 0 (rd r)) as [r1 S]; [rewrite rd_length by exact H; lia|]. rewrite S. cbn. eauto.
Qed.

Lemma data_size_repeat : forall n f b, data_size {| data := Some (repeat None n); front := f; back := b |} = n.
Proof. intros. unfold data_size. cbn. apply repeat_length. Qed.
Lemma resize_spec : forall n r r', wf_rep r -> nc_resizeBuffer r n = Ok r' ->
  wf_rep r' /\ (length (rd r) <= n /\ rd r' = rd r) /\ data_size r' = n /\ front r' = 0.
Proof.
  intros n r r' H. unfold nc_resizeBuffer. destruct ((n =? data_size r) && _) eqn:E.
  - intros S. apply shift_spec in S; [|assumption]. destruct S as (W & R & D & F). rewrite rd_length by assumption.
    unfold wf_rep in H. repeat split; try assumption; lia || (apply W).
  - unfold nc_empty. destruct (front r =? back r) eqn:F; cbn [negb].
    + intros J; injection J as <-. rewrite rd_length by assumption. unfold wf_rep. rewrite data_size_repeat. cbn.
      unfold rd. replace (back r - front r) with 0 by lia. cbn. repeat split; lia.
    + unfold invariant, nc_readAvailable. destruct (back r - front r <=? n) eqn:G; [|discriminate]. cbn [bind].
      unfold wf_rep in H. rewrite load_ok by lia. cbn [bind]. fold (rd r).
      destruct (store _ 0 (rd r)) as [r1| | |] eqn:S; try discriminate. cbn [bind]. intros J; injection J as <-.
      pose proof (store_spec _ _ _ _ S) as (_ & _ & D & C & _). rewrite data_size_repeat in *.
      assert (L : length (rd r) = back r - front r) by (apply rd_length; exact H).
      assert (W : wf_rep {| data := data r1; front := 0; back := back r - front r |}).
      { unfold wf_rep. cbn. change (0 <= back r - front r <= data_size r1). lia. }
      split; [exact W|]. split; [|split; [exact D|reflexivity]]. split; [lia|]. apply rd_ext; [exact W|cbn; lia|].
      intros k Hk. cbn [front]. change (cells {| data := data r1; front := 0; back := back r - front r |}) with (cells r1).
      rewrite C by lia. rewrite blit_nth by (unfold cells; cbn; rewrite repeat_length; lia).
      replace ((0 <=? 0 + k) && (0 + k <? 0 + length (rd r))) with true by lia. f_equal. lia.
Qed.
Lemma resize_ok : forall n r, wf_rep r -> length (rd r) <= n -> exists r', nc_resizeBuffer r n = Ok r'.
Proof.
  intros n r H Hn. unfold nc_resizeBuffer. destruct ((n =? data_size r) && _); [now apply shift_ok|].
  destruct (nc_empty r); cbn [negb]; [eauto|]. rewrite rd_length in Hn by assumption.
  unfold invariant, nc_readAvailable. replace (back r - front r <=? n) with true by lia. cbn [bind].
  unfold wf_rep in H. rewrite load_ok by lia. cbn [bind]. fold (rd r).
  destruct (store_ok {| data := Some (repeat None n); front := 0; back := 0 |} 0 (rd r)) as [r1 S].
  { rewrite data_size_repeat, rd_length by exact H. lia. }
  rewrite S. cbn. eauto.
Qed.
Lemma poke_spec : forall off b r r', wf_rep r -> store r (front r + off) b = Ok r' -> wf_rep r' /\ rd r' = over (rd r) off b.
Proof.
  intros off b r r' H S. pose proof (store_spec _ _ _ _ S) as (F & B & D & C & C0).
  assert (W : wf_rep r') by (unfold wf_rep in *; lia). split; [exact W|].
  assert (L := rd_length r H). unfold wf_rep in H. rewrite ?data_size_cells in *.
  destruct (store_inv _ _ _ _ S) as [I| ->].
  - unfold over. set (blit' := firstn off (rd r) ++ b ++ skipn (off + length b) (rd r)).
    assert (L' : length (rd r) <= length blit') by (unfold blit'; rewrite !app_length, firstn_length, skipn_length; lia).
    apply rd_ext; [exact W|rewrite firstn_length; lia|]. intros k Hk. rewrite firstn_length in Hk.
    rewrite nth_error_firstn_lt by lia. rewrite data_size_cells in I. rewrite C, blit_nth by assumption.
    unfold blit'. rewrite app_nth, firstn_length.
    destruct (Nat.lt_ge_cases k off) as [K|K].
    + replace (k <? min off (length (rd r))) with true by lia.
      replace ((front r + off <=? front r' + k) && _) with false by lia.
      rewrite nth_error_firstn_lt by lia. rewrite rd_nth by (unfold wf_rep; rewrite ?data_size_cells; lia). f_equal. lia.
    + replace (k <? min off (length (rd r))) with false by lia. rewrite app_nth.
      replace (front r + off <=? front r' + k) with true by lia. cbn [andb].
      replace (min off (length (rd r))) with off by lia.
      destruct (k - off <? length b) eqn:M.
      * replace (front r' + k <? front r + off + length b) with true by lia. f_equal. lia.
      * replace (front r' + k <? front r + off + length b) with false by lia. rewrite nth_error_skipn.
        rewrite rd_nth by (unfold wf_rep; rewrite ?data_size_cells; lia). f_equal. lia.
  - unfold over, rd. rewrite C0, F, B by reflexivity. cbn [app length]. rewrite Nat.add_0_r, firstn_skipn. symmetry. apply firstn_all.
Qed.

(** ** Worlds *)
Definition wf_handle (w : world) (h : option (nat * bool)) : Prop := match h with Some (id, _) => id < length (reps w) | None => True end.
Definition wf (w : world) : Prop := Forall wf_rep (reps w) /\ Forall (wf_handle w) (bufs w).
Definition content (w : world) (h : option (nat * bool)) : option bytes :=
  match h with Some (id, _) => Some (rd (nth id (reps w) nc_new)) | None => None end.
Definition abs (w : world) : list (option bytes) := map (content w) (bufs w).

Lemma handle_inv : forall w i h, handle w i = Ok h -> nth_error (bufs w) i = Some (Some h).
Proof. intros w i h. unfold handle. destruct (nth_error (bufs w) i) as [[x|]|]; congruence. Qed.
Lemma rep_of_inv : forall w i id r, rep_of w i = Ok (id, r) ->
  exists cow, nth_error (bufs w) i = Some (Some (id, cow)) /\ nth_error (reps w) id = Some r.
Proof.
  intros w i id r. unfold rep_of. destruct (handle w i) as [[d c]| | |] eqn:H; try discriminate. cbn [bind].
  unfold get. destruct (nth_error (reps w) d) eqn:G; try discriminate. cbn [bind]. intros J. injection J as <- <-.
  exists c. split; [now apply handle_inv|assumption].
Qed.
Lemma rep_of_intro : forall w i id cow r, nth_error (bufs w) i = Some (Some (id, cow)) -> nth_error (reps w) id = Some r ->
  rep_of w i = Ok (id, r).
Proof. intros w i id cow r H G. unfold rep_of, handle, get. rewrite H. cbn [bind]. rewrite G. reflexivity. Qed.
Lemma wf_nth : forall w id r, wf w -> nth_error (reps w) id = Some r -> wf_rep r.
Proof. intros w id r [H _] E. rewrite Forall_forall in H. apply H. eapply nth_error_In; eauto. Qed.
Lemma wf_lookup : forall w i id cow, wf w -> nth_error (bufs w) i = Some (Some (id, cow)) ->
  exists r, nth_error (reps w) id = Some r /\ wf_rep r.
Proof.
  intros w i id cow W H. destruct W as [W1 W2]. rewrite Forall_forall in W2.
  assert (L : id < length (reps w)) by (apply (W2 (Some (id, cow))); eapply nth_error_In; eauto).
  destruct (nth_error (reps w) id) as [r|] eqn:E; [|apply nth_error_None in E; lia].
  exists r. split; [reflexivity|]. eapply wf_nth; [split; [exact W1|rewrite Forall_forall; exact W2]|exact E].
Qed.
Lemma abs_nth : forall w i id cow r, nth_error (bufs w) i = Some (Some (id, cow)) -> nth_error (reps w) id = Some r ->
  nth_error (abs w) i = Some (Some (rd r)).
Proof.
  intros w i id cow r H G. unfold abs. erewrite map_nth_error by exact H. cbn. erewrite nth_error_nth by exact G. reflexivity.
Qed.

Lemma filter_two : forall (A : Type) (P : A -> bool) l i j x y, i < j -> nth_error l i = Some x -> nth_error l j = Some y ->
  P x = true -> P y = true -> 2 <= length (filter P l).
Proof.
  induction l as [|a l IH]; intros i j x y L Hi Hj Px Py; [destruct i; discriminate|].
  destruct i as [|i]; destruct j as [|j]; try lia; cbn [nth_error] in *.
  - injection Hi as ->. cbn [filter]. rewrite Px. cbn [length].
    apply nth_error_In in Hj. assert (In y (filter P l)) by (apply filter_In; auto).
    destruct (filter P l); [contradiction|cbn; lia].
  - assert (2 <= length (filter P l)) by (apply (IH i j x y); auto; lia).
    cbn [filter]. destruct (P a); cbn [length]; lia.
Qed.
Lemma filter_one : forall (A : Type) (P : A -> bool) l i x, nth_error l i = Some x -> P x = true ->
  (forall j y, nth_error l j = Some y -> P y = true -> j = i) -> length (filter P l) = 1.
Proof.
  induction l as [|a l IH]; intros i x Hi Px Hall; [destruct i; discriminate|].
  assert (Hnone : forall l', (forall j y, nth_error l' j = Some y -> P y = false) -> filter P l' = []).
  { clear. induction l' as [|b l' IHl]; intros H; [reflexivity|]. cbn [filter].
    rewrite (H 0 b eq_refl). apply IHl. intros j y. apply (H (S j)). }
  destruct i as [|i]; cbn [nth_error filter] in *.
  - injection Hi as ->. rewrite Px. rewrite Hnone; [reflexivity|]. intros j y Hj.
    destruct (P y) eqn:Py; [|reflexivity]. specialize (Hall (S j) y Hj Py). discriminate.
  - destruct (P a) eqn:Pa; [specialize (Hall 0 a eq_refl Pa); discriminate|].
    eapply IH; [exact Hi|exact Px|]. intros j y Hj Py. specialize (Hall (S j) y Hj Py). lia.
Qed.

Definition alone (w : world) (i id : nat) : Prop :=
  forall j id' cow, j <> i -> nth_error (bufs w) j = Some (Some (id', cow)) -> id' <> id.
Lemma unique_alone : forall w i id cow, nth_error (bufs w) i = Some (Some (id, cow)) ->
  unique w id = true <-> alone w i id.
Proof.
  intros w i id cow Hi. unfold unique. rewrite Nat.eqb_eq. split.
  - intros U j id' c Hj Hh ->.
    assert (2 <= length (filter (refers id) (bufs w))); [|lia].
    destruct (Nat.lt_ge_cases i j).
    + eapply (filter_two _ _ _ i j); eauto; cbn; apply Nat.eqb_refl.
    + eapply (filter_two _ _ _ j i); eauto; cbn; try apply Nat.eqb_refl; lia.
  - intros A. eapply filter_one; [exact Hi|cbn; apply Nat.eqb_refl|].
    intros j [[id' c]|] Hj Hr; [|discriminate]. cbn in Hr. apply Nat.eqb_eq in Hr. subst id'.
    destruct (Nat.eq_dec j i) as [->|Hne]; [reflexivity|]. exfalso. exact (A j id c Hne Hj eq_refl).
Qed.

(** What forceUnique and uniqueify give. *)
Definition separated (w : world) (i : nat) (w' : world) : Prop :=
  wf w' /\ abs w' = abs w /\ length (bufs w') = length (bufs w)
  /\ (exists id cow r, nth_error (bufs w') i = Some (Some (id, cow)) /\ nth_error (reps w') id = Some r /\ alone w' i id
        /\ (w' = w \/ (id = length (reps w) /\ front r = 0 /\ back r = data_size r)))
  /\ (forall k r, nth_error (reps w) k = Some r -> nth_error (reps w') k = Some r).

Lemma content_ext : forall w w' h, wf_handle w h -> (forall k r, nth_error (reps w) k = Some r -> nth_error (reps w') k = Some r) ->
  content w' h = content w h.
Proof.
  intros w w' [[id c]|] H E; [|reflexivity]. cbn in *. destruct (nth_error (reps w) id) as [r|] eqn:G; [|apply nth_error_None in G; lia].
  do 2 f_equal. erewrite (nth_error_nth (reps w')) by (apply E; exact G). now erewrite nth_error_nth by exact G.
Qed.
Lemma fresh_unique : forall w i id cow r n, wf w -> nth_error (bufs w) i = Some (Some (id, cow)) ->
  nth_error (reps w) id = Some r -> wf_rep n -> rd n = rd r -> front n = 0 -> back n = data_size n ->
  separated w i {| reps := reps w ++ [n]; bufs := upd (bufs w) i (Some (length (reps w), cow)) |}.
Proof.
  intros w i id cow r n W Hi Hr Wn Rn Fn Bn. pose proof (nth_error_lt _ _ _ Hi) as Li.
  set (w' := {| reps := reps w ++ [n]; bufs := upd (bufs w) i (Some (length (reps w), cow)) |}).
  assert (K : forall k r, nth_error (reps w) k = Some r -> nth_error (reps w') k = Some r).
  { intros k q Hk. cbn. rewrite nth_error_app1 by (eapply nth_error_lt; eauto). assumption. }
  assert (N : nth_error (reps w') (length (reps w)) = Some n).
  { cbn. rewrite nth_error_app2, Nat.sub_diag by lia. reflexivity. }
  destruct W as [W1 W2]. repeat split.
  - cbn. apply Forall_app. auto.
  - cbn. rewrite Forall_forall in *. intros h Hh. apply In_nth_error in Hh. destruct Hh as [j Hj].
    rewrite nth_error_upd in Hj. destruct ((i =? j) && _).
    + injection Hj as <-. cbn. rewrite app_length; cbn; lia.
    + apply nth_error_In in Hj. apply W2 in Hj. destruct h as [[d c]|]; cbn in *; [rewrite app_length; cbn; lia|exact I].
  - unfold abs. apply nth_error_ext. intros j. cbn [bufs w']. rewrite !nth_error_map, nth_error_upd.
    destruct ((i =? j) && _) eqn:E.
    + replace j with i by lia. rewrite Hi. cbn [option_map content].
      erewrite (nth_error_nth (reps w')) by exact N. erewrite (nth_error_nth (reps w)) by exact Hr. now rewrite Rn.
    + destruct (nth_error (bufs w) j) as [h|] eqn:Hj; [|reflexivity]. cbn [option_map]. f_equal. apply content_ext; [|exact K].
      rewrite Forall_forall in W2. apply W2. eapply nth_error_In; eauto.
  - cbn. apply length_upd.
  - exists (length (reps w)), cow, n. split; [cbn; now apply nth_error_upd_eq|]. split; [exact N|]. split.
    + intros j id' c Hj Hh. cbn in Hh. rewrite nth_error_upd_neq in Hh by lia.
      rewrite Forall_forall in W2. apply nth_error_In in Hh. apply W2 in Hh. cbn in Hh. lia.
    + right. auto.
  - exact K.
Qed.

Lemma forceUnique_spec : forall w i w', wf w -> forceUnique w i = Ok w' -> separated w i w'.
Proof.
  intros w i w' W. unfold forceUnique. destruct (handle w i) as [[id cow]| | |] eqn:H; try discriminate. cbn [bind].
  apply handle_inv in H. destruct (wf_lookup _ _ _ _ W H) as (r & Hr & Wr).
  destruct (unique w id) eqn:U; cbn [negb].
  - intros J; injection J as <-. repeat split; try apply W. 2: auto.
    exists id, cow, r. split; [exact H|]. split; [exact Hr|]. split; [now apply (unique_alone w i id cow H)|]. now left.
  - rewrite (rep_of_intro _ _ _ _ _ H Hr). cbn [bind].
    destruct (nc_resizeBuffer nc_new (nc_readAvailable r)) as [n0| | |] eqn:R; try discriminate. cbn [bind].
    assert (W0 : wf_rep nc_new) by (unfold wf_rep, nc_new; cbn; lia).
    pose proof (resize_spec _ _ _ W0 R) as (Wn0 & (_ & Rn0) & Dn0 & Fn0).
    unfold nc_readAvailable. unfold wf_rep in Wr. rewrite load_ok by lia. cbn [bind]. fold (rd r).
    assert (L := rd_length r Wr). rewrite <- L.
    destruct (nc_extend n0 (length (rd r))) as [n1| | |] eqn:X; try discriminate. cbn [bind].
    destruct (store n1 (back n0) (rd r)) as [n2| | |] eqn:S; try discriminate. cbn [bind]. intros J; injection J as <-.
    assert (P : put_end n0 (rd r) = Ok n2).
    { apply nc_write_put_end. unfold nc_write. rewrite X. cbn [bind]. exact S. }
    apply put_end_spec in P; [|assumption]. destruct P as (Wn2 & Rn2 & Dn2 & Bn2).
    assert (B0 : back n0 = 0).
    { apply (f_equal (@length _)) in Rn0. rewrite rd_length in Rn0 by assumption. cbn in Rn0. lia. }
    eapply fresh_unique; eauto.
    + rewrite Rn2, Rn0. reflexivity.
    + apply store_spec in S. unfold nc_extend, invariant in X. destruct (_ <=? _) in X; [|discriminate]. injection X as <-.
      destruct S as (F & _). cbn in F. lia.
    + unfold nc_readAvailable in Dn0. lia.
Qed.
Lemma forceUnique_ok : forall w i id cow, wf w -> nth_error (bufs w) i = Some (Some (id, cow)) -> exists w', forceUnique w i = Ok w'.
Proof.
  intros w i id cow W H. destruct (wf_lookup _ _ _ _ W H) as (r & Hr & Wr). unfold forceUnique, handle. rewrite H. cbn [bind].
  destruct (negb (unique w id)); [|eauto]. rewrite (rep_of_intro _ _ _ _ _ H Hr). cbn [bind].
  assert (W0 : wf_rep nc_new) by (unfold wf_rep, nc_new; cbn; lia).
  destruct (resize_ok (nc_readAvailable r) nc_new W0) as [n0 R]; [cbn; lia|]. rewrite R. cbn [bind].
  pose proof (resize_spec _ _ _ W0 R) as (Wn0 & (_ & Rn0) & Dn0 & Fn0).
  assert (B0 : back n0 = 0).
  { apply (f_equal (@length _)) in Rn0. rewrite rd_length in Rn0 by assumption. cbn in Rn0. lia. }
  unfold nc_readAvailable in *. unfold wf_rep in Wr. rewrite load_ok by lia. cbn [bind]. fold (rd r).
  assert (L := rd_length r Wr). destruct (put_end_ok n0 (rd r) Wn0) as [n2 P]; [unfold nc_writeAvailable; lia|].
  apply put_end_nc_write in P. unfold nc_write in P. rewrite L in P.
  destruct (nc_extend n0 (back r - front r)) as [n1| | |]; try discriminate. cbn [bind] in *. rewrite P. cbn. eauto.
Qed.

Lemma uniqueify_spec : forall w i w', wf w -> uniqueify w i = Ok w' -> separated w i w'.
Proof.
  intros w i w' W. unfold uniqueify. destruct (handle w i) as [[id cow]| | |] eqn:H; try discriminate. cbn [bind].
  destruct (unique w id) eqn:U; cbn [negb].
  - intros J; injection J as <-. apply forceUnique_spec; [assumption|]. unfold forceUnique. rewrite H. cbn [bind]. rewrite U. reflexivity.
  - destruct (rep_of w i) as [[? r]| | |]; try discriminate. cbn [bind].
    destruct (if 0 <? data_size r then invariant cow else Ok tt); try discriminate. cbn [bind]. now apply forceUnique_spec.
Qed.
(** A buffer may be written if its storage is its own, or copying is allowed, or
    there is nothing to copy. *)
Definition writable (w : world) (i : nat) : Prop :=
  exists id cow r, nth_error (bufs w) i = Some (Some (id, cow)) /\ nth_error (reps w) id = Some r
    /\ (alone w i id \/ cow = true \/ data_size r = 0).
Lemma uniqueify_ok : forall w i, wf w -> writable w i -> exists w', uniqueify w i = Ok w'.
Proof.
  intros w i W (id & cow & r & H & Hr & C). unfold uniqueify, handle. rewrite H. cbn [bind].
  destruct (unique w id) eqn:U; cbn [negb]; [eauto|]. rewrite (rep_of_intro _ _ _ _ _ H Hr). cbn [bind].
  destruct C as [C|[->|C]].
  - apply (unique_alone w i id cow H) in C. congruence.
  - destruct (0 <? data_size r); cbn [invariant bind]; eapply forceUnique_ok; eauto.
  - rewrite C. cbn [Nat.ltb Nat.leb bind]. eapply forceUnique_ok; eauto.
Qed.
Lemma alone_uniqueify : forall w i id cow, nth_error (bufs w) i = Some (Some (id, cow)) -> alone w i id -> uniqueify w i = Ok w.
Proof.
  intros w i id cow H A. unfold uniqueify, handle. rewrite H. cbn [bind].
  apply (unique_alone w i id cow H) in A. rewrite A. reflexivity.
Qed.
Lemma uniqueify_again : forall w i w', wf w -> uniqueify w i = Ok w' -> uniqueify w' i = Ok w'.
Proof.
  intros w i w' W H. apply uniqueify_spec in H; [|assumption]. destruct H as (_ & _ & _ & (id & cow & r & H & _ & A & _) & _).
  eapply alone_uniqueify; eauto.
Qed.

(** Replacing storage that only buffer i refers to. *)
Lemma set_rep_spec : forall w i id cow r r', wf w -> nth_error (bufs w) i = Some (Some (id, cow)) ->
  nth_error (reps w) id = Some r -> alone w i id -> wf_rep r' ->
  wf (set_rep w id r') /\ abs (set_rep w id r') = upd (abs w) i (Some (rd r')).
Proof.
  intros w i id cow r r' [W1 W2] Hi Hr A Wr'. pose proof (nth_error_lt _ _ _ Hr) as Lr. split.
  - split; cbn.
    + rewrite Forall_forall in *. intros x Hx. apply In_nth_error in Hx. destruct Hx as [k Hk]. rewrite nth_error_upd in Hk.
      destruct ((id =? k) && _); [congruence|]. apply nth_error_In in Hk. auto.
    + eapply Forall_impl; [|exact W2]. intros [[d c]|]; cbn; [rewrite length_upd; auto|auto].
  - unfold abs. apply nth_error_ext. intros j. cbn [bufs set_rep]. rewrite nth_error_upd, map_length, !nth_error_map.
    destruct ((i =? j) && (j <? length (bufs w))) eqn:E.
    + replace j with i by lia. rewrite Hi. cbn [option_map content reps].
      erewrite nth_error_nth; [reflexivity|]. now apply nth_error_upd_eq.
    + destruct (nth_error (bufs w) j) as [h|] eqn:Hj; [|reflexivity]. cbn [option_map]. f_equal.
      assert (j <> i) by (apply nth_error_lt in Hj; lia).
      destruct h as [[d c]|]; [|reflexivity]. cbn. do 2 f_equal. apply A in Hj; [|assumption].
      destruct (nth_error (reps w) d) as [q|] eqn:G.
      * erewrite (nth_error_nth (upd _ _ _)); [|rewrite nth_error_upd_neq by congruence; exact G].
        symmetry. now apply nth_error_nth.
      * rewrite !nth_overflow; [reflexivity| |rewrite length_upd]; now apply nth_error_None.
Qed.

(** The storage operations in terms of buffer contents. *)
Definition implements (f : rep -> res rep) (P : bytes -> bytes -> Prop) : Prop :=
  forall r r', wf_rep r -> f r = Ok r' -> wf_rep r' /\ P (rd r) (rd r').
Lemma mutate_inv : forall w i f w', wf w -> mutate w i f = Ok w' ->
  exists w1 id cow r r', uniqueify w i = Ok w1 /\ separated w i w1 /\ nth_error (bufs w1) i = Some (Some (id, cow))
    /\ nth_error (reps w1) id = Some r /\ alone w1 i id /\ f r = Ok r' /\ w' = set_rep w1 id r'.
Proof.
  intros w i f w' W. unfold mutate. destruct (uniqueify w i) as [w1| | |] eqn:U; try discriminate. cbn [bind].
  pose proof (uniqueify_spec _ _ _ W U) as S. pose proof S as (_ & _ & _ & (id & cow & r & H & Hr & A & _) & _).
  rewrite (rep_of_intro _ _ _ _ _ H Hr). cbn [bind]. destruct (f r) as [r'| | |] eqn:F; try discriminate. cbn [bind].
  intros J; injection J as <-. exists w1, id, cow, r, r'. auto 10.
Qed.
Lemma mutate_spec : forall w i f w' P, wf w -> implements f P -> mutate w i f = Ok w' ->
  wf w' /\ change (abs w) i (abs w') P.
Proof.
  intros w i f w' P W I M. destruct (mutate_inv _ _ _ _ W M) as (w1 & id & cow & r & r' & _ & (W1 & Ab & _) & H & Hr & A & F & ->).
  destruct (I r r' (wf_nth _ _ _ W1 Hr) F) as [Wr' HP].
  destruct (set_rep_spec _ _ _ _ _ _ W1 H Hr A Wr') as [Wf Abs]. split; [exact Wf|].
  exists (rd r), (rd r'). split; [rewrite <- Ab; eapply abs_nth; eauto|]. split; [exact HP|]. now rewrite Abs, Ab.
Qed.
Lemma mutate_mutate : forall w i f g w1 w2, wf w -> mutate w i f = Ok w1 -> mutate w1 i g = Ok w2 ->
  mutate w i (fun r => let! r := f r in g r) = Ok w2.
Proof.
  intros w i f g w1 w2 W M1 M2. destruct (mutate_inv _ _ _ _ W M1) as (u & id & cow & r & r' & U & S & H & Hr & A & F & ->).
  unfold mutate in *. rewrite U. cbn [bind]. rewrite (rep_of_intro _ _ _ _ _ H Hr). cbn [bind]. rewrite F. cbn [bind].
  assert (H' : nth_error (bufs (set_rep u id r')) i = Some (Some (id, cow))) by exact H.
  rewrite (alone_uniqueify _ _ _ _ H' A) in M2. cbn [bind] in M2.
  assert (Hr' : nth_error (reps (set_rep u id r')) id = Some r') by (cbn; apply nth_error_upd_eq; eapply nth_error_lt; eauto).
  rewrite (rep_of_intro _ _ _ _ _ H' Hr') in M2. cbn [bind] in M2.
  destruct (g r') as [r2| | |]; try discriminate. cbn [bind] in *. injection M2 as <-. f_equal. unfold set_rep; cbn. f_equal.
  clear. revert id. generalize (reps u). induction l as [|x l IH]; intros [|id]; cbn; congruence.
Qed.
Lemma mutate_ok : forall w i f, wf w -> writable w i ->
  (forall w1 id cow r, uniqueify w i = Ok w1 -> nth_error (bufs w1) i = Some (Some (id, cow)) -> nth_error (reps w1) id = Some r ->
     wf_rep r -> nth_error (abs w) i = Some (Some (rd r)) -> exists r', f r = Ok r') ->
  exists w', mutate w i f = Ok w'.
Proof.
  intros w i f W Wr F. destruct (uniqueify_ok _ _ W Wr) as [w1 U]. unfold mutate. rewrite U. cbn [bind].
  pose proof (uniqueify_spec _ _ _ W U) as (W1 & Ab & _ & (id & cow & r & H & Hr & A & _) & _).
  rewrite (rep_of_intro _ _ _ _ _ H Hr). cbn [bind].
  destruct (F w1 id cow r U H Hr (wf_nth _ _ _ W1 Hr)) as [r' ->]; [rewrite <- Ab; eapply abs_nth; eauto|]. cbn. eauto.
Qed.

(** Other buffers keep their storage. *)
Lemma forceUnique_bufs : forall w i w' j, forceUnique w i = Ok w' -> j <> i -> nth_error (bufs w') j = nth_error (bufs w) j.
Proof.
  intros w i w' j. unfold forceUnique.
  repeat match goal with |- bind ?e _ = Ok _ -> _ => destruct e as [x| | |]; cbn [bind]; [|discriminate ..]; try (destruct x) end.
  destruct (negb _); [|intros J; injection J as <-; reflexivity].
  repeat match goal with |- bind ?e _ = Ok _ -> _ => destruct e as [?x| | |]; cbn [bind]; [|discriminate ..]; try (match goal with y : _ * _ |- _ => destruct y end) end.
  cbv zeta.
  repeat match goal with |- bind ?e _ = Ok _ -> _ => destruct e as [?x| | |]; cbn [bind]; [|discriminate ..] end.
  intros J Hj. injection J as <-. cbn. now rewrite nth_error_upd_neq by congruence.
Qed.
Lemma uniqueify_bufs : forall w i w' j, uniqueify w i = Ok w' -> j <> i -> nth_error (bufs w') j = nth_error (bufs w) j.
Proof.
  intros w i w' j. unfold uniqueify. destruct (handle w i) as [[id cow]| | |]; try discriminate. cbn [bind].
  destruct (negb _); [|intros J; injection J as <-; reflexivity].
  destruct (rep_of w i) as [[? r]| | |]; try discriminate. cbn [bind].
  destruct (if 0 <? data_size r then invariant cow else Ok tt); try discriminate. cbn [bind]. apply forceUnique_bufs.
Qed.
