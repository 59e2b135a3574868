(** Properties C13-C15 and C61-C63 of ByteBuffer. *)
From Coq Require Import List ZArith Bool Lia ZifyBool ZifyNat.
From Verif Require Import Common CommonFacts ListFacts ByteBuffer_Spec ByteBuffer_Model ByteBuffer_Proofs ByteBuffer_Facts.
Import ListNotations.

Definition reachable (w : world) : Prop := exists ops, exec_ops step initial ops = Ok w.
(** No other live buffer refers to the storage of buffer i. *)
Definition unshared (w : world) (i : nat) : Prop :=
  exists id cow, nth_error (bufs w) i = Some (Some (id, cow))
    /\ forall j id' cow', j <> i -> nth_error (bufs w) j = Some (Some (id', cow')) -> id' <> id.
(** It was made with allow_copy_on_write. *)
Definition copy_allowed (w : world) (i : nat) : Prop := exists id, nth_error (bufs w) i = Some (Some (id, true)).

Lemma wf_initial : wf initial.
Proof. split; constructor. Qed.
Lemma exec_wf : forall ops w w', wf w -> exec_ops step w ops = Ok w' -> wf w'.
Proof.
  induction ops as [|o ops IH]; intros w w' W; cbn [exec_ops]; [intros J; injection J as <-; exact W|].
  destruct (step w o) as [[w1 r]| | |] eqn:E; try discriminate. cbn [bind]. apply step_spec in E; [|exact W]. apply IH. tauto.
Qed.
Lemma reachable_wf : forall w, reachable w -> wf w.
Proof. intros w [ops H]. exact (exec_wf _ _ _ wf_initial H). Qed.

(** ** C14: every history of calls that return is one of independent byte strings *)
Theorem C14_byte_fifo : forall ops rs, run_ops step initial ops = map Ok rs -> exists s, history s ops rs.
Proof.
  assert (G : forall ops w rs ops0 rs0, wf w -> history (abs w) ops0 rs0 -> run_ops step w ops = map Ok rs ->
    exists s, history s (ops0 ++ ops) (rs0 ++ rs)).
  { induction ops as [|o ops IH]; intros w rs ops0 rs0 W H; cbn [run_ops].
    - intros E. destruct rs; [|discriminate]. rewrite !app_nil_r. eauto.
    - destruct (step w o) as [[w1 r]| | |] eqn:E; [|intros J; destruct rs as [|? [|]]; discriminate ..].
      intros J. destruct rs as [|r' rs]; [discriminate|]. cbn [map] in J. injection J as <- J.
      apply step_spec in E; [|exact W]. destruct E as [W1 S].
      destruct (IH w1 rs (ops0 ++ [o]) (rs0 ++ [r]) W1 (h_step _ _ _ _ _ _ H S) J) as [s Hs].
      exists s. rewrite <- !app_assoc in Hs. exact Hs. }
  intros ops rs E. apply (G ops initial rs [] []); [apply wf_initial|apply h_nil|exact E].
Qed.
(** Reading back always works and gives that string. *)
Theorem C14_read_back : forall w i, reachable w -> (exists h, nth_error (bufs w) i = Some (Some h)) ->
  exists c, step w (AsString i) = Ok (w, Bytes c) /\ step w (ReadAvailable i) = Ok (w, Count (length c)).
Proof.
  intros w i R [[id cow] H]. apply reachable_wf in R. destruct (wf_lookup _ _ _ _ R H) as (r & Hr & Wr).
  exists (rd r). cbn [step]. rewrite (rep_of_intro _ _ _ _ _ H Hr). cbn [bind]. rewrite readable_ok by assumption. cbn [bind].
  split; [reflexivity|]. now rewrite rd_length by assumption.
Qed.

Lemma asString_abs : forall w i c, wf w -> step w (AsString i) = Ok (w, Bytes c) <-> nth_error (abs w) i = Some (Some c).
Proof.
  intros w i c W. split.
  - intros H. apply step_spec in H; [|exact W]. destruct H as (_ & _ & d & Hd & E). congruence.
  - intros H. unfold abs in H. rewrite nth_error_map in H. destruct (nth_error (bufs w) i) as [[[id cow]|]|] eqn:B; try discriminate.
    destruct (wf_lookup _ _ _ _ W B) as (r & Hr & Wr). cbn [step]. rewrite (rep_of_intro _ _ _ _ _ B Hr). cbn [bind].
    rewrite readable_ok by assumption. cbn in H. erewrite nth_error_nth in H by exact Hr. cbn [bind]. congruence.
Qed.

(** Allowed calls on a buffer that may be written return. *)
Lemma writable_intro : forall w i, wf w -> (unshared w i \/ copy_allowed w i) -> writable w i.
Proof.
  intros w i W [(id & cow & H & A)|(id & H)]; destruct (wf_lookup _ _ _ _ W H) as (r & Hr & _); exists id; eexists; exists r; eauto 6.
Qed.
Lemma writable_separated : forall w i w', separated w i w' -> writable w' i.
Proof. intros w i w' (_ & _ & _ & (id & cow & r & H & Hr & A & _) & _). exists id, cow, r. auto. Qed.
Lemma mutate_writable : forall w i f w', wf w -> mutate w i f = Ok w' -> writable w' i /\ forall j, nth_error (bufs w') j <> None <-> nth_error (bufs w) j <> None.
Proof.
  intros w i f w' W M. destruct (mutate_inv _ _ _ _ W M) as (w1 & id & cow & r & r' & _ & (_ & _ & L & _) & H & Hr & A & _ & ->). split.
  - exists id, cow, r'. split; [exact H|]. split; [cbn; apply nth_error_upd_eq; eapply nth_error_lt; eauto|]. left. exact A.
  - intros j. cbn. rewrite !nth_error_Some. lia.
Qed.
Lemma append_mem_ok : forall w i b, wf w -> writable w i -> exists w', append w i (Mem b) = Ok w'.
Proof.
  intros w i b W Wr. destruct (uniqueify_ok _ _ W Wr) as [w1 U]. unfold append. rewrite U. cbn [bind].
  pose proof (uniqueify_spec _ _ _ W U) as S. pose proof S as (W1 & _ & _ & (id & cow & r & H & Hr & A & _) & _).
  rewrite (rep_of_intro _ _ _ _ _ H Hr). cbn [bind src_len]. pose proof (wf_nth _ _ _ W1 Hr) as Wr1.
  assert (Wr1' : writable w1 i) by (eapply writable_separated; eauto).
  pose proof (alone_uniqueify _ _ _ _ H A) as U1.
  destruct (nc_writeAvailable r <? length b) eqn:E.
  - cbn [bind].
    destruct (resize_ok (data_size r + (length b - nc_writeAvailable r)) r Wr1) as [r2 R2].
    { rewrite rd_length by assumption. unfold wf_rep in Wr1. lia. }
    unfold mutate at 1. rewrite U1. cbn [bind]. rewrite (rep_of_intro _ _ _ _ _ H Hr). cbn [bind]. rewrite R2. cbn [bind].
    pose proof (resize_spec _ _ _ Wr1 R2) as (W2 & (_ & Rd2) & D2 & F2).
    assert (B2 : back r2 = back r - front r).
    { apply (f_equal (@length _)) in Rd2. rewrite !rd_length in Rd2 by assumption. unfold wf_rep in W2. lia. }
    unfold mutate. rewrite (alone_uniqueify (set_rep w1 id r2) i id cow H A). cbn [bind].
    erewrite rep_of_intro; [|exact H|cbn; apply nth_error_upd_eq; eapply nth_error_lt; eauto]. cbn [bind].
    destruct (put_end_ok r2 b W2) as [r3 P]; [unfold nc_writeAvailable in *; unfold wf_rep in Wr1; lia|].
    apply put_end_nc_write in P. rewrite P. cbn. eauto.
  - cbn [bind]. unfold mutate. rewrite U1. cbn [bind]. rewrite (rep_of_intro _ _ _ _ _ H Hr). cbn [bind].
    destruct (put_end_ok r b Wr1) as [r3 P]; [lia|]. apply put_end_nc_write in P. rewrite P. cbn. eauto.
Qed.
Lemma append_buf_ok : forall w i j id cow, wf w -> writable w i -> i <> j -> nth_error (bufs w) j = Some (Some (id, cow)) ->
  exists p w', readable_ptr w j = Ok p /\ append w i p = Ok w'.
Proof.
  intros w i j id cow W Wr Ne Hj. destruct (wf_lookup _ _ _ _ W Hj) as (q & Hq & Wq).
  unfold readable_ptr. rewrite (rep_of_intro _ _ _ _ _ Hj Hq). cbn [bind]. eexists. 
  assert (L : load q (front q) (nc_readAvailable q) = Ok (rd q)) by now apply readable_ok.
  destruct (append_mem_ok w i (rd q) W Wr) as [w' A]. exists w'. split; [reflexivity|].
  revert A. unfold append. destruct (uniqueify w i) as [w1| | |] eqn:U; try discriminate. cbn [bind].
  pose proof (uniqueify_spec _ _ _ W U) as (W1 & _ & _ & X & K).
  destruct (rep_of w1 i) as [[id1 r1]| | |] eqn:R; try discriminate. cbn [bind src_len].
  apply load_inv in L as L'. destruct L' as [Ln _]. rewrite Ln.
  destruct (nc_writeAvailable r1 <? nc_readAvailable q) eqn:E.
  - assert (Nid : id =? id1 = false).
    { destruct X as (i2 & c2 & r2 & H2 & Hr2 & A2 & _). apply rep_of_inv in R. destruct R as (c3 & H3 & _).
      assert (i2 = id1) by congruence. subst i2.
      assert (Hj1 : nth_error (bufs w1) j = Some (Some (id, cow))).
      { rewrite (uniqueify_bufs _ _ _ j U) by congruence. exact Hj. }
      apply A2 in Hj1; [|congruence]. lia. }
    rewrite Nid. cbn [bind]. destruct (mutate w1 i _) as [w2| | |] eqn:M; try discriminate. cbn [bind].
    destruct (mutate_inv _ _ _ _ W1 M) as (u & id' & cow' & y & y' & U' & _ & Hu & Hy & _ & _ & ->).
    pose proof (uniqueify_again _ _ _ W U) as U1. assert (u = w1) by congruence. subst u.
    apply rep_of_inv in R. destruct R as (c3 & H3 & _). assert (id' = id1) by congruence. subst id'.
    unfold get. cbn [reps set_rep]. rewrite nth_error_upd_neq by lia. rewrite (K _ _ Hq). cbn [bind]. rewrite L. auto.
  - cbn [bind]. unfold get. rewrite (K _ _ Hq). cbn [bind]. rewrite L. auto.
Qed.

Theorem C14_allowed_calls_return : forall w o i c, reachable w -> target o = Some i ->
  step w (AsString i) = Ok (w, Bytes c) -> allowed o c ->
  (forall j, reads o = Some j -> exists d, step w (AsString j) = Ok (w, Bytes d)) ->
  (unshared w i \/ copy_allowed w i) ->
  exists w' r, step w o = Ok (w', r).
Proof.
  intros w o i c R T Hc Al Rd Wr. apply reachable_wf in R as W. apply asString_abs in Hc; [|exact W].
  apply writable_intro in Wr; [|exact W].
  assert (D : forall f, (forall r, wf_rep r -> rd r = c -> exists r', f r = Ok r') -> exists w' r, done (mutate w i f) = Ok (w', r)).
  { intros f F. destruct (mutate_ok w i f W Wr) as [w' M].
    - intros w1 id cow r _ _ _ Wr1 A. apply F; [exact Wr1|congruence].
    - rewrite M. cbn. eauto. }
  assert (Rst : exists w1, mutate w i nc_reset = Ok w1).
  { apply mutate_ok; [exact W|exact Wr|]. intros. unfold nc_reset. eauto. }
  destruct o; cbn [target allowed reads] in *; try contradiction; injection T as ->; cbn [step].
  - apply D. intros r Wr1 <-. rewrite rd_length in Al by assumption. unfold nc_consume, nc_readAvailable.
    replace (n <=? back r - front r) with true by lia. eauto.
  - apply D. intros r Wr1 <-. rewrite rd_length in Al by assumption. unfold nc_unextend, invariant, nc_readAvailable.
    replace (n <=? back r - front r) with true by lia. cbn. eauto.
  - destruct (append_mem_ok w i b W Wr) as [w' A]. rewrite A. cbn. eauto.
  - destruct (Rd j eq_refl) as [d Hd]. apply asString_abs in Hd; [|exact W].
    unfold abs in Hd. rewrite nth_error_map in Hd. destruct (nth_error (bufs w) j) as [[[jd jc]|]|] eqn:B; try discriminate.
    destruct (append_buf_ok w i j jd jc W Wr Al B) as (p & w' & P & A). rewrite P. cbn [bind]. rewrite A. cbn. eauto.
  - unfold abs in Hc. rewrite nth_error_map in Hc. destruct (nth_error (bufs w) i) as [[[id cw]|]|] eqn:B; try discriminate.
    destruct (wf_lookup _ _ _ _ W B) as (q & Hq & Wq). cbn in Hc. erewrite nth_error_nth in Hc by exact Hq. injection Hc as Hc.
    rewrite (rep_of_intro _ _ _ _ _ B Hq). cbn [bind]. assert (Lq := rd_length q Wq). rewrite Hc in Lq.
    unfold invariant, nc_readAvailable. rewrite Z.mod_small by lia.
    replace (off + Z.of_nat (length b) <=? Z.of_nat (back q - front q))%Z with true by lia. cbn [bind].
    apply D. intros r Wr1 Hr. assert (Lr := rd_length r Wr1). rewrite Hr in Lr. unfold wf_rep in Wr1.
    replace ((off <? 0)%Z || _) with false by lia. apply store_ok. lia.
  - apply D. intros r Wr1 <-. now apply resize_ok.
  - apply D. intros r Wr1 _. now apply shift_ok.
  - apply D. intros r Wr1 _. unfold nc_reset. eauto.
  - apply D. intros r Wr1 _. unfold nc_purge. eauto.
  - destruct Rst as [w1 M]. rewrite M. cbn [bind].
    assert (W1 : wf w1).
    { apply (mutate_spec _ _ _ _ (fun _ _ => True)) in M; [tauto|exact W|]. intros r r' Wr1 J; injection J as <-.
      unfold wf_rep, data_size in *; cbn; split; [lia|exact I]. }
    destruct (mutate_writable _ _ _ _ W M) as [Wr1 _]. destruct (append_mem_ok w1 i b W1 Wr1) as [w' A]. rewrite A. cbn. eauto.
  - destruct Rst as [w1 M]. rewrite M. cbn [bind].
    assert (X : wf w1 /\ change (abs w) i (abs w1) (fun _ _ => True)).
    { apply (mutate_spec _ _ _ _ (fun _ _ => True)) in M; [tauto|exact W|]. intros r r' Wr1 J; injection J as <-.
      unfold wf_rep, data_size in *; cbn; split; [lia|exact I]. }
    destruct X as [W1 (x & y & _ & _ & Ab)].
    destruct (mutate_writable _ _ _ _ W M) as [Wr1 _].
    destruct (Rd j eq_refl) as [d Hd]. apply asString_abs in Hd; [|exact W].
    assert (Hd1 : nth_error (abs w1) j = Some (Some d)) by (rewrite Ab, nth_error_upd_neq by exact Al; exact Hd).
    unfold abs in Hd1. rewrite nth_error_map in Hd1. destruct (nth_error (bufs w1) j) as [[[jd jc]|]|] eqn:B; try discriminate.
    destruct (append_buf_ok w1 i j jd jc W1 Wr1 Al B) as (p & w' & P & A). rewrite P. cbn [bind]. rewrite A. cbn. eauto.
Qed.
(** Writing to a shared buffer that was not made with allow_copy_on_write is reported. *)
Theorem C14_shared_write_reported : forall w o i c n, reachable w -> target o = Some i -> allowed o c ->
  step w (AsString i) = Ok (w, Bytes c) -> step w (BufferSize i) = Ok (w, Count n) -> 0 < n ->
  (forall j, reads o = Some j -> exists d, step w (AsString j) = Ok (w, Bytes d)) ->
  ~ unshared w i -> ~ copy_allowed w i -> step w o = Abort.
Proof.
  intros w o i c n R T Al Hc Hn Pn Rd NU NC. apply reachable_wf in R as W.
  assert (U : uniqueify w i = Abort).
  { cbn [step] in Hn. destruct (rep_of w i) as [[id r]| | |] eqn:Q; try discriminate. cbn [bind] in Hn. injection Hn as <-.
    pose proof Q as Q'. apply rep_of_inv in Q'. destruct Q' as (cow & H & Hr). unfold uniqueify, handle. rewrite H. cbn [bind].
    destruct (unique w id) eqn:U; cbn [negb].
    - exfalso. apply NU. exists id, cow. split; [exact H|]. now apply (unique_alone w i id cow H).
    - rewrite Q. cbn [bind]. replace (0 <? data_size r) with true by lia. destruct cow; [|reflexivity].
      exfalso. apply NC. exists id. exact H. }
  assert (M : forall f, mutate w i f = Abort) by (intros f; unfold mutate; rewrite U; reflexivity).
  assert (A : forall s, append w i s = Abort) by (intros s; unfold append; rewrite U; reflexivity).
  destruct o; cbn [target allowed reads] in *; try contradiction; injection T as ->; cbn [step]; rewrite ?M, ?A; try reflexivity.
  - destruct (Rd j eq_refl) as [d Hd]. cbn [step] in Hd. unfold readable_ptr. destruct (rep_of w j) as [[jd q]| | |]; try discriminate.
    cbn [bind]. rewrite A. reflexivity.
  - apply asString_abs in Hc; [|exact W]. unfold abs in Hc. rewrite nth_error_map in Hc. destruct (nth_error (bufs w) i) as [[[id cw]|]|] eqn:B; try discriminate.
    destruct (wf_lookup _ _ _ _ W B) as (q & Hq & Wq). rewrite (rep_of_intro _ _ _ _ _ B Hq). cbn [bind].
    destruct (invariant _) eqn:E; [|reflexivity|unfold invariant in E; destruct (_ <=? _)%Z in E; discriminate ..].
    cbn [bind]. reflexivity.
Qed.
Example C14_nonvacuous :
  run_ops step initial [NewFrom [Some 1; Some 2; Some 3]%Z true; Copy 0; Consume 1 1; Append 1 [Some 9%Z]; AsString 1; AsString 0; Equal 0 1]
  = map Ok [Handle 0; Handle 1; Done; Done; Bytes [Some 2; Some 3; Some 9]%Z; Bytes [Some 1; Some 2; Some 3]%Z; Truth false].
Proof. vm_compute. reflexivity. Qed.
Example C14_shared_nonvacuous :
  run_ops step initial [NewFrom [Some 1%Z] false; Copy 0; Consume 1 1] = [Ok (Handle 0); Ok (Handle 1); Abort].
Proof. vm_compute. reflexivity. Qed.
Print Assumptions C14_byte_fifo.
Print Assumptions C14_allowed_calls_return.
Print Assumptions C14_shared_write_reported.

(** ** C13: a call changes at most the buffer it is called on *)
Theorem C13_copies_isolated : forall w o w' r j c, reachable w -> step w o = Ok (w', r) -> target o <> Some j ->
  step w (AsString j) = Ok (w, Bytes c) -> step w' (AsString j) = Ok (w', Bytes c).
Proof.
  intros w o w' r j c R S T H. apply reachable_wf in R. apply step_spec in S; [|exact R]. destruct S as [W' S].
  apply asString_abs in H; [|exact R]. apply asString_abs; [exact W'|].
  assert (C : forall i P, Some i <> Some j -> change (abs w) i (abs w') P -> nth_error (abs w') j = Some (Some c)).
  { intros i P Ne (a & b & _ & _ & ->). rewrite nth_error_upd_neq by congruence. exact H. }
  assert (Ap : forall x, nth_error (abs w ++ [x]) j = Some (Some c)).
  { intros x. rewrite nth_error_app1 by (eapply nth_error_lt; eauto). exact H. }
  assert (Eq : abs w' = abs w -> nth_error (abs w') j = Some (Some c)) by (intros ->; exact H).
  destruct o; cbn [spec_step target] in *; unfold query in *;
    repeat match goal with
    | X : _ /\ _ |- _ => destruct X
    | X : exists _, _ |- _ => destruct X
    end; subst;
    try (match goal with X : abs w' = _ ++ _ |- _ => rewrite X; apply Ap end);
    try (now apply Eq);
    try (eapply C; eassumption).
  match goal with X : _ = upd _ _ _ |- _ => rewrite X end. rewrite nth_error_upd_neq by congruence. exact H.
Qed.
Example C13_nonvacuous :
  run_ops step initial [NewFrom [Some 1; Some 2]%Z true; Copy 0; Copy 1; Replace 1 0%Z [Some 7%Z]; Purge 2; AsString 0; AsString 1]
  = map Ok [Handle 0; Handle 1; Handle 2; Done; Done; Bytes [Some 1; Some 2]%Z; Bytes [Some 7; Some 2]%Z].
Proof. vm_compute. reflexivity. Qed.
Print Assumptions C13_copies_isolated.

(** ** C15: writeAvailable() bytes can be written *)
(** For a buffer that shares its storage this fails, see C15_shared_refuted. *)
Theorem C15_write_partial : forall w i n b, reachable w -> unshared w i ->
  step w (WriteAvailable i) = Ok (w, Count n) -> length b <= n ->
  (exists w', step w (Write i b) = Ok (w', Done))
  /\ (exists w', step w (Extend i (length b)) = Ok (w', Done))
  /\ (forall k, k <= length b -> exists w', step w (WriteExtend i b k) = Ok (w', Done)).
Proof.
  intros w i n b R (id & cow & H & A) Hn Lb. apply reachable_wf in R as W. destruct (wf_lookup _ _ _ _ W H) as (r & Hr & Wr).
  cbn [step] in *. rewrite (rep_of_intro _ _ _ _ _ H Hr) in Hn. cbn [bind] in Hn. injection Hn as <-.
  pose proof (alone_uniqueify _ _ _ _ H A) as U. unfold mutate. rewrite U. cbn [bind]. rewrite (rep_of_intro _ _ _ _ _ H Hr). cbn [bind].
  split; [|split].
  - destruct (put_end_ok r b Wr Lb) as [r' P]. apply put_end_nc_write in P. rewrite P. cbn. eauto.
  - unfold nc_extend, invariant. replace (length b <=? nc_writeAvailable r) with true by lia. cbn. eauto.
  - intros k Hk. unfold nc_extend at 1, invariant. cbn [Nat.leb bind]. rewrite Nat.add_0_r. cbn [back].
    assert (Eq : {| data := data r; front := front r; back := back r |} = r) by (destruct r; reflexivity). rewrite Eq.
    unfold nc_writeAvailable in Lb. destruct (store_ok r (back r) b) as [r1 S]; [unfold wf_rep in Wr; lia|]. rewrite S. cbn [bind].
    rewrite (alone_uniqueify (set_rep w id r1) i id cow H A). cbn [bind].
    erewrite rep_of_intro; [|exact H|cbn; apply nth_error_upd_eq; eapply nth_error_lt; eauto]. cbn [bind].
    apply store_spec in S. destruct S as (_ & B & D & _). unfold nc_extend, invariant, nc_writeAvailable.
    replace (k <=? data_size r1 - back r1) with true by lia. cbn. eauto.
Qed.
(** A copy reports the room of the storage it shares, but writing makes a private
    copy without that room. *)
Theorem C15_shared_refuted : exists ops w, exec_ops step initial ops = Ok w /\ copy_allowed w 1
  /\ step w (WriteAvailable 1) = Ok (w, Count 4) /\ step w (Write 1 [Some 7%Z]) = Abort /\ step w (Extend 1 1) = Abort.
Proof.
  exists [New true; Resize 0 4; Copy 0]. eexists. split; [vm_compute; reflexivity|].
  split; [exists 0; reflexivity|]. repeat split.
Qed.
(** The same hole makes appendFromStream write outside its storage. *)
Theorem C15_stream_overflow_refuted : exists ops w, exec_ops step initial ops = Ok w /\ copy_allowed w 1
  /\ step w (AppendFrom 1 2 [Some 7; Some 8]%Z) = UB.
Proof. exists [New true; Resize 0 4; Copy 0]. eexists. split; [vm_compute; reflexivity|]. split; [exists 0; reflexivity|reflexivity]. Qed.
Example C15_nonvacuous :
  run_ops step initial [NewFrom [Some 1%Z] false; Resize 0 4; WriteAvailable 0; Write 0 [Some 2; Some 3; Some 4]%Z; AsString 0]
  = map Ok [Handle 0; Done; Count 3; Done; Bytes [Some 1; Some 2; Some 3; Some 4]%Z].
Proof. vm_compute. reflexivity. Qed.
Print Assumptions C15_write_partial.
Print Assumptions C15_shared_refuted.

(** ** C61: a buffer as its own source *)
(** append(self) works only while there is room. *)
Theorem C61_self_append_partial : forall w i n c, reachable w -> unshared w i ->
  step w (AsString i) = Ok (w, Bytes c) -> step w (WriteAvailable i) = Ok (w, Count n) -> length c <= n ->
  exists w', step w (AppendBuf i i) = Ok (w', Done) /\ step w' (AsString i) = Ok (w', Bytes (c ++ c)).
Proof.
  intros w i n c R (id & cow & H & A) Hc Hn Lc. apply reachable_wf in R as W. destruct (wf_lookup _ _ _ _ W H) as (r & Hr & Wr).
  assert (S : exists w', step w (AppendBuf i i) = Ok (w', Done)).
  { cbn [step] in *. rewrite (rep_of_intro _ _ _ _ _ H Hr) in Hn. cbn [bind] in Hn. injection Hn as <-.
    rewrite (rep_of_intro _ _ _ _ _ H Hr) in Hc. cbn [bind] in Hc. rewrite readable_ok in Hc by assumption. cbn [bind] in Hc. injection Hc as <-.
    unfold readable_ptr. rewrite (rep_of_intro _ _ _ _ _ H Hr). cbn [bind].
    unfold append. pose proof (alone_uniqueify _ _ _ _ H A) as U. rewrite U. cbn [bind].
    rewrite (rep_of_intro _ _ _ _ _ H Hr). cbn [bind src_len]. rewrite rd_length in Lc by assumption.
    change (nc_readAvailable r) with (back r - front r) at 1.
    replace (nc_writeAvailable r <? back r - front r) with false by lia. cbn [bind]. unfold get. rewrite Hr. cbn [bind].
    assert (L : load r (front r) (nc_readAvailable r) = Ok (rd r)) by now apply readable_ok. rewrite L. cbn [bind].
    unfold mutate. rewrite U. cbn [bind]. rewrite (rep_of_intro _ _ _ _ _ H Hr). cbn [bind].
    destruct (put_end_ok r (rd r) Wr) as [r' P]; [rewrite rd_length by assumption; lia|]. apply put_end_nc_write in P. rewrite P. cbn. eauto. }
  destruct S as [w' S]. exists w'. split; [exact S|]. apply step_spec in S; [|exact W]. destruct S as [W' (_ & d & Hd & a & b & Ha & -> & Ab)].
  apply asString_abs in Hc; [|exact W]. apply asString_abs; [exact W'|]. rewrite Ab, nth_error_upd_eq by (eapply nth_error_lt; eauto).
  congruence.
Qed.
(** When it has to grow it copies from the storage it just freed. *)
Theorem C61_self_append_refuted : exists ops w, exec_ops step initial ops = Ok w /\ unshared w 0 /\ step w (AppendBuf 0 0) = UB.
Proof.
  exists [NewFrom [Some 1%Z] true]. eexists. split; [vm_compute; reflexivity|]. split; [|reflexivity].
  exists 0, true. split; [reflexivity|]. intros [|[|j]] id' cow' Ne; cbn; try discriminate; congruence.
Qed.
(** assign(self) loses the contents. *)
Theorem C61_self_assign_refuted : exists ops w w', exec_ops step initial ops = Ok w
  /\ step w (AsString 0) = Ok (w, Bytes [Some 1; Some 2]%Z) /\ step w (AssignBuf 0 0) = Ok (w', Done)
  /\ step w' (AsString 0) = Ok (w', Bytes []).
Proof. exists [NewFrom [Some 1; Some 2]%Z true]. do 2 eexists. split; [vm_compute; reflexivity|]. repeat split. Qed.
(** Assigning a buffer to itself with = keeps it. *)
Theorem C61_self_operator_assign : forall w i c, reachable w -> step w (AsString i) = Ok (w, Bytes c) ->
  exists w', step w (Set_ i i) = Ok (w', Done) /\ step w' (AsString i) = Ok (w', Bytes c).
Proof.
  intros w i c R Hc. apply reachable_wf in R as W. assert (S : exists w', step w (Set_ i i) = Ok (w', Done)).
  { cbn [step] in *. unfold rep_of in Hc. destruct (handle w i) as [h| | |]; try discriminate. cbn. eauto. }
  destruct S as [w' S]. exists w'. split; [exact S|]. apply step_spec in S; [|exact W]. destruct S as [W' (_ & d & Hd & a & b & Ha & -> & Ab)].
  apply asString_abs in Hc; [|exact W]. apply asString_abs; [exact W'|]. rewrite Ab, nth_error_upd_eq by (eapply nth_error_lt; eauto). congruence.
Qed.
Example C61_nonvacuous :
  run_ops step initial [NewFrom [Some 1%Z] true; Resize 0 2; AppendBuf 0 0; AsString 0] = map Ok [Handle 0; Done; Done; Bytes [Some 1; Some 1]%Z].
Proof. vm_compute. reflexivity. Qed.
Print Assumptions C61_self_append_partial.

(** ** C62: reading a stream *)
Theorem C62_appendFromStream_partial : forall w i amount s c, reachable w -> unshared w i ->
  step w (AsString i) = Ok (w, Bytes c) ->
  exists w', step w (AppendFrom i amount s) = Ok (w', Stream (min amount (length s)) (skipn amount s))
    /\ step w' (AsString i) = Ok (w', Bytes (c ++ firstn amount s)).
Proof.
  intros w i amount s c R (id & cow & H & A) Hc. apply reachable_wf in R as W. destruct (wf_lookup _ _ _ _ W H) as (r & Hr & Wr).
  assert (X : exists w', appendFromStream w i amount s = Ok w').
  { unfold appendFromStream. rewrite (rep_of_intro _ _ _ _ _ H Hr). cbn [bind].
    assert (E : exists r1 w1, (if nc_writeAvailable r <? amount
       then mutate w i (fun _r => nc_resizeBuffer _r (data_size r - nc_writeAvailable r + amount)) else Ok w) = Ok w1
       /\ bufs w1 = bufs w /\ nth_error (reps w1) id = Some r1 /\ wf_rep r1 /\ amount <= nc_writeAvailable r1).
    { destruct (nc_writeAvailable r <? amount) eqn:E.
      - unfold nc_writeAvailable in *. destruct (resize_ok (data_size r - (data_size r - back r) + amount) r Wr) as [r1 P].
        { rewrite rd_length by assumption. unfold wf_rep in Wr. lia. }
        exists r1, (set_rep w id r1). unfold mutate. rewrite (alone_uniqueify _ _ _ _ H A). cbn [bind].
        rewrite (rep_of_intro _ _ _ _ _ H Hr). cbn [bind]. rewrite P. cbn [bind]. split; [reflexivity|]. split; [reflexivity|].
        split; [cbn; apply nth_error_upd_eq; eapply nth_error_lt; eauto|].
        apply resize_spec in P; [|assumption]. destruct P as (W1 & (_ & Rd1) & D1 & F1). split; [exact W1|].
        apply (f_equal (@length _)) in Rd1. rewrite !rd_length in Rd1 by assumption. unfold wf_rep in *. lia.
      - exists r, w. repeat split; auto; unfold wf_rep in *; lia. }
    destruct E as (r1 & w1 & -> & B1 & Hr1 & Wr1 & Am). cbn [bind].
    assert (H1 : nth_error (bufs w1) i = Some (Some (id, cow))) by (rewrite B1; exact H).
    assert (A1 : alone w1 i id) by (unfold alone; rewrite B1; exact A).
    rewrite (rep_of_intro _ _ _ _ _ H1 Hr1). cbn [bind]. unfold invariant. replace (amount <=? nc_writeAvailable r1) with true by lia. cbn [bind].
    assert (Dl : forall k q w2, bufs w2 = bufs w -> nth_error (reps w2) id = Some q -> wf_rep q -> k <= nc_writeAvailable q ->
       exists q' q'', store q (back q) (firstn k s) = Ok q' /\
         mutate (set_rep w2 id q') i (fun r0 => nc_extend r0 (length (firstn k s))) = Ok (set_rep (set_rep w2 id q') id q'')).
    { intros k q w2 B2 Hq Wq Lk. unfold nc_writeAvailable in Lk.
      destruct (store_ok q (back q) (firstn k s)) as [q' S]; [rewrite firstn_length; unfold wf_rep in Wq; lia|].
      exists q'. pose proof (store_spec _ _ _ _ S) as (_ & Bq & Dq & _).
      assert (H2 : nth_error (bufs (set_rep w2 id q')) i = Some (Some (id, cow))) by (cbn; rewrite B2; exact H).
      assert (A2 : alone (set_rep w2 id q') i id) by (unfold alone; cbn; rewrite B2; exact A).
      unfold mutate. rewrite (alone_uniqueify _ _ _ _ H2 A2). cbn [bind].
      erewrite rep_of_intro; [|exact H2|cbn; apply nth_error_upd_eq; eapply nth_error_lt; eauto]. cbn [bind].
      unfold nc_extend, invariant, nc_writeAvailable. rewrite firstn_length.
      replace (min k (length s) <=? data_size q' - back q') with true by lia. cbn [bind]. eexists. split; [exact S|reflexivity]. }
    cbn [from_loop andb]. destruct (0 <? amount) eqn:Z0; [|eauto].
    rewrite (alone_uniqueify _ _ _ _ H1 A1). cbn [bind]. rewrite (rep_of_intro _ _ _ _ _ H1 Hr1). cbn [bind].
    unfold stream_read. rewrite Nat.sub_0_r.
    destruct (Dl amount r1 w1 B1 Hr1 Wr1 Am) as (q' & q'' & S & M). rewrite S. cbn [bind]. rewrite M. cbn [bind].
    rewrite firstn_length. destruct (amount <=? length s) eqn:G; cbn [andb]; [|eauto].
    replace (0 + min amount (length s) <? amount) with false by lia. eauto. }
  destruct X as [[[w' k] rest] X]. exists w'. cbn [step]. rewrite X. cbn [bind].
  apply appendFrom_spec in X; [|exact W]. destruct X as (W' & -> & -> & a & b & Ha & -> & Ab). split; [reflexivity|].
  apply asString_abs in Hc; [|exact W]. apply asString_abs; [exact W'|]. rewrite Ab, nth_error_upd_eq by (eapply nth_error_lt; eauto).
  congruence.
Qed.

Lemma entire_loop_ok : forall fuel ltr w i id cow r max s (good : bool) n, wf w ->
  nth_error (bufs w) i = Some (Some (id, cow)) -> nth_error (reps w) id = Some r -> alone w i id ->
  data_size r <= max -> (0 < data_size r \/ max = 0) ->
  2 * length s + 2 * (max - data_size r) + (if good then 2 else 0) <= fuel ->
  exists x, entire_loop fuel ltr w i max s good n = Ok x.
Proof.
  induction fuel as [|f IH]; intros ltr w i id cow r max s good n W H Hr A Lm Pm Lf; cbn [entire_loop]; (destruct good; [|eauto]); [lia|].
  rewrite (rep_of_intro _ _ _ _ _ H Hr). cbn [bind]. pose proof (wf_nth _ _ _ W Hr) as Wr.
  destruct (0 <? nc_writeAvailable r) eqn:E.
  - rewrite (alone_uniqueify _ _ _ _ H A). cbn [bind]. rewrite (rep_of_intro _ _ _ _ _ H Hr). cbn [bind].
    replace (if ltr then nc_writeAvailable r else nc_writeAvailable r) with (nc_writeAvailable r) by (destruct ltr; reflexivity).
    unfold stream_read. set (k := nc_writeAvailable r) in *.
    destruct (put_end_ok r (firstn k s) Wr) as [r2 P]; [rewrite firstn_length; lia|].
    pose proof (put_end_spec _ _ _ Wr P) as (W2 & _ & D2 & B2). unfold put_end in P.
    destruct (store r (back r) (firstn k s)) as [r1| | |] eqn:S; try discriminate. cbn [bind] in *.
    assert (H1 : nth_error (bufs (set_rep w id r1)) i = Some (Some (id, cow))) by exact H.
    assert (M : mutate (set_rep w id r1) i (fun r0 => nc_extend r0 (length (firstn k s))) = Ok (set_rep (set_rep w id r1) id r2)).
    { unfold mutate. rewrite (alone_uniqueify _ _ _ _ H1 A). cbn [bind].
      erewrite rep_of_intro; [|exact H1|cbn; apply nth_error_upd_eq; eapply nth_error_lt; eauto]. cbn [bind]. rewrite P. reflexivity. }
    rewrite M. cbn [bind].
    assert (Ws : wf (set_rep w id r1)).
    { destruct (set_rep_spec w i id cow r r1 W H Hr A) as [Y _]; [|exact Y]. apply store_spec in S. unfold wf_rep in *. lia. }
    assert (Wss : wf (set_rep (set_rep w id r1) id r2)).
    { destruct (set_rep_spec (set_rep w id r1) i id cow r1 r2 Ws H1) as [Y _]; [|exact A|exact W2|exact Y].
      cbn. apply nth_error_upd_eq. eapply nth_error_lt; eauto. }
    eapply IH; [exact Wss|exact H|cbn; apply nth_error_upd_eq; rewrite length_upd; eapply nth_error_lt; eauto|exact A|lia|lia|].
    rewrite skipn_length. destruct (k <=? length s) eqn:G; lia.
  - destruct (data_size r <? max) eqn:E1.
    + destruct (resize_ok (min (data_size r * 2) max) r Wr) as [r1 P]; [rewrite rd_length by assumption; unfold wf_rep in Wr; lia|].
      assert (M : mutate w i (fun r0 => nc_resizeBuffer r0 (min (data_size r * 2) max)) = Ok (set_rep w id r1)).
      { unfold mutate. rewrite (alone_uniqueify _ _ _ _ H A). cbn [bind]. rewrite (rep_of_intro _ _ _ _ _ H Hr). cbn [bind]. rewrite P. reflexivity. }
      rewrite M. cbn [bind]. apply resize_spec in P; [|assumption]. destruct P as (W1 & _ & D1 & _).
      eapply IH; [exact (proj1 (set_rep_spec w i id cow r r1 W H Hr A W1))|exact H|cbn; apply nth_error_upd_eq; eapply nth_error_lt; eauto|exact A|lia|lia|lia].
    + unfold invariant. replace (data_size r =? max) with true by lia. cbn. eauto.
Qed.
(** appendEntireStream on a buffer with its own storage: it returns; either the
    whole stream was read or the buffer is full at the limit; the storage stays
    within the larger of the limit and what there was. *)
Theorem C62_appendEntireStream_partial : forall w ltr i max_size s size c, reachable w -> unshared w i ->
  step w (BufferSize i) = Ok (w, Count size) -> step w (AsString i) = Ok (w, Bytes c) ->
  exists w' n size', step w (AppendEntire ltr i max_size s) = Ok (w', Stream n (skipn n s))
    /\ step w' (AsString i) = Ok (w', Bytes (c ++ firstn n s))
    /\ step w' (BufferSize i) = Ok (w', Count size') /\ size' <= max size max_size
    /\ (n = length s \/ (size' = max size max_size /\ step w' (WriteAvailable i) = Ok (w', Count 0))).
Proof.
  intros w ltr i max_size s size c R (id & cow & H & A) Hs Hc. apply reachable_wf in R as W. destruct (wf_lookup _ _ _ _ W H) as (r & Hr & Wr).
  cbn [step] in Hs. rewrite (rep_of_intro _ _ _ _ _ H Hr) in Hs. cbn [bind] in Hs. injection Hs as <-.
  assert (X : exists x, appendEntireStream w ltr i max_size s = Ok x).
  { unfold appendEntireStream. rewrite (rep_of_intro _ _ _ _ _ H Hr). cbn [bind].
    assert (E : exists r1 w1, (if data_size r =? 0 then mutate w i (fun r => nc_resizeBuffer r (min 1024 max_size)) else Ok w) = Ok w1
      /\ wf w1 /\ bufs w1 = bufs w /\ nth_error (reps w1) id = Some r1 /\ (0 < data_size r1 \/ max_size = 0)).
    { destruct (data_size r =? 0) eqn:E.
      - destruct (resize_ok (min 1024 max_size) r Wr) as [r1 P]; [rewrite rd_length by assumption; unfold wf_rep in Wr; lia|].
        exists r1, (set_rep w id r1). unfold mutate. rewrite (alone_uniqueify _ _ _ _ H A). cbn [bind].
        rewrite (rep_of_intro _ _ _ _ _ H Hr). cbn [bind]. rewrite P. cbn [bind]. split; [reflexivity|].
        apply resize_spec in P; [|assumption]. destruct P as (W1 & _ & D1 & _).
        split; [exact (proj1 (set_rep_spec w i id cow r r1 W H Hr A W1))|]. split; [reflexivity|].
        split; [cbn; apply nth_error_upd_eq; eapply nth_error_lt; eauto|lia].
      - exists r, w. repeat split; auto; try apply W. left. lia. }
    destruct E as (r1 & w1 & -> & W1 & B1 & Hr1 & Ds). cbn [bind].
    assert (H1 : nth_error (bufs w1) i = Some (Some (id, cow))) by (rewrite B1; exact H).
    rewrite (rep_of_intro _ _ _ _ _ H1 Hr1). cbn [bind].
    eapply (entire_loop_ok _ ltr w1 i id cow r1); [exact W1|exact H1|exact Hr1|unfold alone; rewrite B1; exact A|lia|lia|].
    unfold entire_fuel. lia. }
  destruct X as [[[w' k] rest] X]. exists w', k. cbn [step]. rewrite X. cbn [bind].
  apply appendEntire_spec in X; [|exact W]. destruct X as (W' & Lk & -> & (a & b & Ha & -> & Ab) & F).
  destruct (F _ _ (rep_of_intro _ _ _ _ _ H Hr)) as [(id1 & r1 & R1 & Bd) Fin].
  exists (data_size r1). split; [reflexivity|].
  split; [apply asString_abs in Hc; [|exact W]; apply asString_abs; [exact W'|]; rewrite Ab, nth_error_upd_eq by (eapply nth_error_lt; eauto);
    congruence|]. cbn [step]. rewrite R1. cbn [bind]. split; [reflexivity|]. split; [exact Bd|].
  destruct Fin as [Fin|(id2 & r2 & R2 & Wa & Sz)].
  - left. apply (f_equal (@length _)) in Fin. rewrite skipn_length in Fin. cbn in Fin. lia.
  - right. rewrite R1 in R2. injection R2 as <- <-. split; [exact Sz|]. now rewrite Wa.
Qed.
(** On a copy that shares empty storage with room, the loop never ends (arguments
    evaluated left to right) or writes outside the storage (right to left). *)
Theorem C62_shared_refuted : exists ops w, exec_ops step initial ops = Ok w /\ copy_allowed w 1
  /\ (forall fuel, entire_loop fuel true w 1 100 [Some 7%Z] true 0 = Fuel)
  /\ step w (AppendEntire false 1 100 [Some 7%Z]) = UB.
Proof.
  exists [New true; Resize 0 4; Copy 0]. eexists. split; [vm_compute; reflexivity|]. split; [exists 0; reflexivity|]. split; [|reflexivity].
  set (w1 := {| reps := [{| data := Some [None; None; None; None]; front := 0; back := 0 |}; {| data := Some []; front := 0; back := 0 |}];
                bufs := [Some (0, true); Some (1, true)] |}).
  assert (L : forall fuel, entire_loop fuel true w1 1 100 [Some 7%Z] true 0 = Fuel).
  { induction fuel as [|f IH]; [reflexivity|]. transitivity (entire_loop f true w1 1 100 [Some 7%Z] true 0); [reflexivity|exact IH]. }
  intros [|f]; [reflexivity|]. transitivity (entire_loop f true w1 1 100 [Some 7%Z] true 0); [reflexivity|apply L].
Qed.
Example C62_nonvacuous :
  run_ops step initial [NewFrom [Some 1%Z] false; AppendFrom 0 2 [Some 2; Some 3; Some 4]%Z; AppendEntire true 0 5 [Some 5; Some 6; Some 7]%Z; AsString 0]
  = map Ok [Handle 0; Stream 2 [Some 4%Z]; Stream 2 [Some 7%Z]; Bytes [Some 1; Some 2; Some 3; Some 5; Some 6]%Z].
Proof. vm_compute. reflexivity. Qed.
Print Assumptions C62_appendEntireStream_partial.
Print Assumptions C62_appendFromStream_partial.

(** ** C63: replace outside the readable bytes is reported *)
Theorem C63_replace_partial : forall w i off b c, reachable w -> step w (AsString i) = Ok (w, Bytes c) ->
  (0 <= off)%Z -> (off + Z.of_nat (length b) < 2 ^ 64)%Z -> (Z.of_nat (length c) < off + Z.of_nat (length b))%Z ->
  step w (Replace i off b) = Abort.
Proof.
  intros w i off b c R Hc O1 O2 O3. apply reachable_wf in R as W. cbn [step] in *.
  destruct (rep_of w i) as [[id r]| | |] eqn:Q; try discriminate. cbn [bind] in *.
  apply rep_of_inv in Q. destruct Q as (cow & _ & Hr). pose proof (wf_nth _ _ _ W Hr) as Wr.
  rewrite readable_ok in Hc by assumption. cbn [bind] in Hc. injection Hc as <-. rewrite rd_length in O3 by assumption.
  rewrite Z.mod_small by lia. unfold invariant, nc_readAvailable.
  replace (off + Z.of_nat (length b) <=? Z.of_nat (back r - front r))%Z with false by lia. reflexivity.
Qed.
(** offset + length wraps around: the write lands before the data. *)
Theorem C63_replace_wraps_refuted : exists ops w off, (0 <= off < 2 ^ 64)%Z /\ exec_ops step initial ops = Ok w
  /\ step w (Replace 0 off [Some 7%Z]) = UB.
Proof. exists [NewFrom [Some 1%Z] true]. eexists. exists (2 ^ 64 - 1)%Z. split; [lia|]. split; [vm_compute; reflexivity|]. vm_compute. reflexivity. Qed.
Example C63_nonvacuous : run_ops step initial [NewFrom [Some 1; Some 2]%Z true; Replace 0 1%Z [Some 7; Some 8]%Z] = [Ok (Handle 0); Abort].
Proof. vm_compute. reflexivity. Qed.
Print Assumptions C63_replace_partial.
