(** Typed access to a ByteBuffer: C117. *)
From Coq Require Import List Arith ZArith Bool Lia ZifyBool ZifyNat.
From Verif Require Import Common CommonFacts ListFacts ByteBuffer_Spec ByteBuffer_Model ByteBuffer_Proofs ByteBuffer_Facts ByteBuffer_Props BufAs_Model.
Import ListNotations.

(** [ts] are [n] elements of [size] bytes each. *)
Definition elements_of (size n : nat) (ts : list bytes) : Prop := length ts = n /\ Forall (fun t => length t = size) ts.
(** What buffer i holds. *)
Definition holds (w : world) (i : nat) (c : bytes) : Prop := step w (AsString i) = Ok (w, Bytes c).

Lemma byte_count_small size n : (Z.of_nat n * Z.of_nat size < 2 ^ 64)%Z -> byte_count size (Z.of_nat n) = n * size.
Proof. intros H. unfold byte_count. rewrite Z.mod_small by nia. nia. Qed.
Lemma concat_length size ts : Forall (fun t : bytes => length t = size) ts -> length (concat ts) = length ts * size.
Proof. induction 1 as [|t ts L _ IH]; [reflexivity|]. cbn [concat length]. rewrite app_length, IH, L. lia. Qed.
Lemma shifted w i w1 c : wf w -> holds w i c -> step w (Shift i) = Ok (w1, Done) -> wf w1 /\ exists id cow r, nth_error (bufs w1) i = Some (Some (id, cow)) /\ nth_error (reps w1) id = Some r /\ alone w1 i id /\ wf_rep r /\ front r = 0 /\ rd r = c.
Proof.
  intros W H S. pose proof S as S0. apply step_spec in S0; [|exact W]. destruct S0 as [W1 _]. split; [exact W1|].
  cbn [step] in S. unfold done in S. destruct (mutate w i nc_shift) as [w'| | |] eqn:M; try discriminate. cbn [bind] in S. injection S as <-.
  destruct (mutate_inv _ _ _ _ W M) as (u & id & cow & r & r' & U & (Wu & Ab & _) & B & R & A & F & ->).
  destruct (shift_spec _ _ (wf_nth _ _ _ Wu R) F) as (Wr & E & _ & F0). exists id, cow, r'.
  split; [exact B|]. split; [cbn; apply nth_error_upd_eq; eapply nth_error_lt; eauto|]. split; [exact A|]. split; [exact Wr|]. split; [exact F0|].
  rewrite E. apply asString_abs in H; [|exact W]. rewrite <- Ab in H. rewrite (abs_nth _ _ _ _ _ B R) in H. congruence.
Qed.
Lemma mutate_alone w i id cow r f : nth_error (bufs w) i = Some (Some (id, cow)) -> nth_error (reps w) id = Some r -> alone w i id ->
  mutate w i f = (let! r := f r in Ok (set_rep w id r)).
Proof. intros B R A. unfold mutate. rewrite (alone_uniqueify _ _ _ _ B A). cbn [bind]. rewrite (rep_of_intro _ _ _ _ _ B R). reflexivity. Qed.

(** After shift(), reading the elements gives the contents, piece by piece; nothing else is
    needed for the alignment. *)
Theorem C117_read : forall w i w1 c size align k, reachable w -> holds w i c -> step w (Shift i) = Ok (w1, Done) ->
  0 < align -> size mod align = 0 -> (k + 1) * size <= length c ->
  readAs w1 i size align k = Ok (firstn size (skipn (k * size) c)).
Proof.
  intros w i w1 c size al k R H S AL SA K. destruct (shifted w i w1 c (reachable_wf _ R) H S) as (_ & id & cow & r & B & Rr & _ & Wr & F0 & E).
  unfold readAs. rewrite (rep_of_intro _ _ _ _ _ B Rr). cbn [bind]. rewrite F0. cbn [Nat.add]. unfold at_pos.
  assert (M : (k * size) mod al = 0). { apply Nat.mod_divides in SA; [|lia]. destruct SA as (q & ->). replace (k * (al * q)) with (k * q * al) by nia. apply Nat.mod_mul. lia. }
  rewrite M. cbn [Nat.eqb]. pose proof (rd_length r Wr) as L. rewrite E, F0 in L. unfold wf_rep in Wr.
  rewrite load_ok by nia. f_equal. rewrite <- E. unfold rd. rewrite F0, Nat.sub_0_r. cbn [skipn].
  rewrite skipn_firstn_comm, firstn_firstn. f_equal. nia.
Qed.
Print Assumptions C117_read.

(** Elements that need no alignment are read without shift(), wherever the data is. *)
Theorem C117_read_bytes : forall w i c size k, reachable w -> holds w i c -> (k + 1) * size <= length c ->
  readAs w i size 1 k = Ok (firstn size (skipn (k * size) c)).
Proof.
  intros w i c size k R H K. pose proof (reachable_wf _ R) as W. apply asString_abs in H; [|exact W]. unfold abs in H. rewrite nth_error_map in H.
  destruct (nth_error (bufs w) i) as [[[id cow]|]|] eqn:B; try discriminate. destruct (wf_lookup _ _ _ _ W B) as (r & Rr & Wr).
  cbn in H. erewrite nth_error_nth in H by exact Rr. injection H as E.
  unfold readAs. rewrite (rep_of_intro _ _ _ _ _ B Rr). cbn [bind]. unfold at_pos. rewrite Nat.mod_1_r. cbn [Nat.eqb].
  pose proof (rd_length r Wr) as L. rewrite E in L. unfold wf_rep in Wr. rewrite load_ok by nia. f_equal. rewrite <- E. unfold rd.
  rewrite skipn_firstn_comm, firstn_firstn, skipn_skipn. rewrite (Nat.add_comm (k * size)). f_equal. nia.
Qed.
Print Assumptions C117_read_bytes.

(** After shift(), when the bytes in the buffer are a multiple of the alignment and the
    elements fit into what writeAvailable() says: writing them appends them, whatever their
    number, if the number of bytes fits a size_t. *)
Theorem C117_write : forall w i w1 c size align n ts room, reachable w -> holds w i c -> step w (Shift i) = Ok (w1, Done) ->
  0 < align -> length c mod align = 0 -> elements_of size n ts -> (Z.of_nat n * Z.of_nat size < 2 ^ 64)%Z ->
  step w1 (WriteAvailable i) = Ok (w1, Count room) -> n * size <= room ->
  exists w2, writeAs w1 i size align (Z.of_nat n) ts = Ok w2 /\ holds w2 i (c ++ concat ts) /\
    forall j d, j <> i -> holds w1 j d -> holds w2 j d.
Proof.
  intros w i w1 c size al n ts room R H S AL CA (LT & FT) SM AV RM. destruct (shifted w i w1 c (reachable_wf _ R) H S) as (W1 & id & cow & r & B & Rr & A & Wr & F0 & E).
  cbn [step] in AV. rewrite (rep_of_intro _ _ _ _ _ B Rr) in AV. cbn [bind] in AV. injection AV as <-.
  pose proof (concat_length _ _ FT) as CL. rewrite LT in CL. pose proof (rd_length r Wr) as L. rewrite E, F0, Nat.sub_0_r in L.
  assert (X : writeAs w1 i size al (Z.of_nat n) ts = mutate w1 i (nc_write (concat ts))).
  { unfold writeAs. rewrite !(mutate_alone _ _ _ _ _ _ B Rr A). f_equal. unfold nc_write. rewrite (byte_count_small _ _ SM), CL.
    destruct (nc_extend r (n * size)) as [r'| | |]; cbn [bind]; try reflexivity. unfold at_pos. rewrite <- L, CA. reflexivity. }
  rewrite X, (mutate_alone _ _ _ _ _ _ B Rr A).
  destruct (put_end_ok r (concat ts) Wr) as (r' & P); [lia|]. pose proof (put_end_nc_write _ _ _ P) as P'. rewrite P'. cbn [bind].
  destruct (write_spec _ _ _ Wr P') as (Wr' & RD). destruct (set_rep_spec _ _ _ _ _ _ W1 B Rr A Wr') as (W2 & AB). exists (set_rep w1 id r'). split; [reflexivity|].
  pose proof (nth_error_lt _ _ _ (abs_nth _ _ _ _ _ B Rr)) as LI. split.
  - apply asString_abs; [exact W2|]. rewrite AB, nth_error_upd_eq by exact LI. now rewrite RD, E.
  - intros j d NJ Hj. apply asString_abs; [exact W2|]. rewrite AB, nth_error_upd_neq by congruence. now apply asString_abs.
Qed.
Print Assumptions C117_write.

(** extendAs, like extend: it is refused exactly when the elements do not fit, and otherwise
    that many bytes become readable. Any buffer that nobody shares. *)
Theorem C117_extend : forall w i c size n room, reachable w -> unshared w i -> holds w i c -> (Z.of_nat n * Z.of_nat size < 2 ^ 64)%Z ->
  step w (WriteAvailable i) = Ok (w, Count room) ->
  if n * size <=? room then exists w2 junk, extendAs w i size (Z.of_nat n) = Ok w2 /\ length junk = n * size /\ holds w2 i (c ++ junk)
  else extendAs w i size (Z.of_nat n) = Abort.
Proof.
  intros w i c size n room R (id & cow & B & A) H SM AV. pose proof (reachable_wf _ R) as W. destruct (wf_lookup _ _ _ _ W B) as (r & Rr & Wr).
  cbn [step] in AV. rewrite (rep_of_intro _ _ _ _ _ B Rr) in AV. cbn [bind] in AV. injection AV as <-.
  unfold extendAs. rewrite (byte_count_small _ _ SM), (mutate_alone _ _ _ _ _ _ B Rr A).
  destruct (n * size <=? nc_writeAvailable r) eqn:K.
  - destruct (nc_extend r (n * size)) as [r'| | |] eqn:X; [|unfold nc_extend in X; rewrite K in X; discriminate ..].
    destruct (extend_spec _ _ _ Wr X) as (Wr' & junk & J & RD). destruct (set_rep_spec _ _ _ _ _ _ W B Rr A Wr') as (W2 & AB).
    exists (set_rep w id r'), junk. split; [reflexivity|]. split; [exact J|]. apply asString_abs; [exact W2|].
    apply asString_abs in H; [|exact W]. rewrite AB, nth_error_upd_eq by (eapply nth_error_lt; exact H). rewrite RD. rewrite (abs_nth _ _ _ _ _ B Rr) in H. congruence.
  - unfold nc_extend. rewrite K. reflexivity.
Qed.
Print Assumptions C117_extend.

(** False of the code: a number of elements that does not fit is refused. When the number of
    bytes wraps, an empty buffer without any room accepts 2^61 elements of 8 bytes, and
    writing the first of them goes outside of its memory. *)
Theorem C117_wrap_refuted : exists w w2 t, reachable w /\ step w (WriteAvailable 0) = Ok (w, Count 0) /\
  extendAs w 0 8 (2 ^ 61) = Ok w2 /\ holds w2 0 [] /\ length t = 8 /\ writeAs w 0 8 8 (2 ^ 61) [t] = UB.
Proof.
  eexists (new_buf initial true), _, (repeat (Some 7%Z) 8). split; [exists [New true]; reflexivity|]. split; [reflexivity|].
  split; [vm_compute; reflexivity|]. split; [vm_compute; reflexivity|]. split; [reflexivity|]. vm_compute. reflexivity.
Qed.
Print Assumptions C117_wrap_refuted.

(** False of the code: writeStartAs gives a usable pointer wherever the buffer ends. After an
    odd number of bytes, with room enough and shifted, it is not aligned. *)
Theorem C117_align_refuted : exists w room t, reachable w /\ step w (Shift 0) = Ok (w, Done) /\ step w (WriteAvailable 0) = Ok (w, Count room) /\
  8 <= room /\ length t = 8 /\ writeAs w 0 8 8 1 [t] = UB.
Proof.
  destruct (exec_ops step initial [New true; Append 0 [Some 1%Z]; Resize 0 20]) as [w| | |] eqn:E; [|vm_compute in E; discriminate ..].
  exists w, 19, (repeat (Some 7%Z) 8). split; [eexists; exact E|]. vm_compute in E. injection E as <-. split; [reflexivity|]. split; [reflexivity|]. split; [lia|]. split; reflexivity.
Qed.
Print Assumptions C117_align_refuted.

(** Two 2-byte elements after two bytes of a buffer some of which was consumed. *)
Example C117_example : exists w w1 w2, exec_ops step initial [New true; Append 0 [Some 1; Some 2; Some 3; Some 4]%Z; Resize 0 9; Consume 0 2; Copy 0; Append 1 [Some 9%Z]] = Ok w /\
  holds w 0 [Some 3; Some 4]%Z /\ step w (Shift 0) = Ok (w1, Done) /\ step w1 (WriteAvailable 0) = Ok (w1, Count 7) /\
  elements_of 2 2 [[Some 5; Some 6]; [Some 7; Some 8]]%Z /\ writeAs w1 0 2 2 2 [[Some 5; Some 6]; [Some 7; Some 8]]%Z = Ok w2 /\
  holds w2 0 [Some 3; Some 4; Some 5; Some 6; Some 7; Some 8]%Z /\ readAs w2 0 2 2 1 = Ok [Some 5; Some 6]%Z /\ unshared w2 0 /\ extendAs w2 0 2 2 = Abort.
Proof.
  eexists _, _, _. split; [vm_compute; reflexivity|]. split; [vm_compute; reflexivity|]. split; [vm_compute; reflexivity|]. split; [vm_compute; reflexivity|].
  split; [split; [reflexivity|repeat constructor]|]. split; [vm_compute; reflexivity|]. split; [vm_compute; reflexivity|]. split; [vm_compute; reflexivity|]. split; [|vm_compute; reflexivity].
  eexists _, _. split; [vm_compute; reflexivity|]. intros [|[|j]] id' cow' N; cbn; intros E; [congruence|injection E as <- _; discriminate|destruct j; discriminate].
Qed.
