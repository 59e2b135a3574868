(** C95: posix::readN and posix::read0. *)
From Coq Require Import List Arith ZArith Lia Bool ZifyBool ZifyNat.
From Verif Require Import Common CommonFacts ListFacts Posix_Model.
Import ListNotations.
Local Open Scope Z_scope.

(** no call fails among those scripted *)
Definition no_errors (f : fd) : Prop := ~ In Fail (script f).
(** [buf] with its first bytes replaced by [bytes] *)
Definition filled (buf bytes : list Z) : list Z := bytes ++ skipn (length bytes) buf.

Lemma store_at pre rest bytes : (length bytes <= length rest)%nat ->
  store (pre ++ rest) (length pre) bytes = Ok ((pre ++ bytes) ++ skipn (length bytes) rest).
Proof.
  intros H. unfold store. rewrite app_length. replace (length pre + length bytes <=? length pre + length rest)%nat with true by lia.
  rewrite firstn_app, firstn_all, Nat.sub_diag. cbn [firstn]. rewrite app_nil_r, skipn_app. rewrite skipn_all2 by lia. cbn [app].
  replace (length pre + length bytes - length pre)%nat with (length bytes) by lia. now rewrite app_assoc.
Qed.
Lemma sys_read_spec f n got f' : no_errors f -> sys_read f n = (got, f') ->
  exists bytes, got = Some bytes /\ unread f = bytes ++ unread f' /\ (length bytes <= n)%nat /\ no_errors f' /\
    ((1 <= n)%nat -> bytes = [] -> unread f = []) /\ (script f = [] -> length bytes = Nat.min n (length (unread f)) /\ script f' = []).
Proof.
  unfold no_errors, sys_read. intros N E. destruct (script f) as [|[k|] r] eqn:Es.
  - injection E as <- <-. exists (firstn n (unread f)). cbn [unread script]. split; [reflexivity|]. split; [now rewrite firstn_skipn|]. rewrite firstn_length. split; [lia|]. split; [intros []|].
    split; [|auto]. intros Hn Hb. destruct (unread f); [reflexivity|]. destruct n; [lia|discriminate].
  - injection E as <- <-. set (m := Nat.min n (Nat.max 1 k)). exists (firstn m (unread f)). cbn [unread script]. split; [reflexivity|]. split; [now rewrite firstn_skipn|]. rewrite firstn_length. split; [subst m; lia|].
    split; [intros H; apply N; now right|]. split; [|discriminate]. intros Hn Hb. destruct (unread f); [reflexivity|]. destruct m eqn:Em; [subst m; lia|discriminate].
  - exfalso. apply N. now left.
Qed.

(** ** A file with at most nbyte bytes left is read completely, whatever the lengths of
    the single reads; nothing else in the buffer changes. *)
Theorem C95_fits_partial : forall f buf nbyte fuel, no_errors f -> (nbyte <= length buf)%nat -> (length (unread f) <= nbyte)%nat -> (length (unread f) < fuel)%nat ->
  exists f', readN fuel f buf nbyte = Ok (Z.of_nat (length (unread f)), filled buf (unread f), f') /\ unread f' = [].
Proof.
  intros f buf nbyte fuel N Hb Hu Hf.
  assert (G : forall fuel f pre rest, no_errors f -> (length (unread f) < fuel)%nat -> (length pre + length (unread f) <= nbyte)%nat -> (length (unread f) <= length rest)%nat -> (pre = [] \/ length pre < nbyte)%nat ->
    exists f', readN_loop fuel f (pre ++ rest) nbyte (length pre) (Z.of_nat nbyte - Z.of_nat (length pre)) = Ok (Z.of_nat (length pre + length (unread f)), (pre ++ unread f) ++ skipn (length (unread f)) rest, f') /\ unread f' = []).
  { clear. induction fuel as [|fuel IH]; intros f pre rest N Hf Hn Hr Hp; [lia|]. cbn [readN_loop]. destruct (sys_read f nbyte) as [got f1] eqn:Es.
    destruct (sys_read_spec f nbyte got f1 N Es) as (bytes & -> & Eu & Hl & N1 & Z1 & _).
    assert (L : length (unread f) = (length bytes + length (unread f1))%nat) by (rewrite Eu, app_length; reflexivity).
    rewrite store_at by lia. cbn [bind]. destruct (Z.of_nat (length bytes) =? 0) eqn:E0.
    - assert (bytes = []) by (destruct bytes; [reflexivity|cbn [length] in E0; lia]). subst bytes. cbn [app length skipn] in *. rewrite app_nil_r.
      assert (U : unread f = []). { destruct nbyte; [destruct (unread f); [reflexivity|cbn [length] in *; lia]|apply Z1; [lia|reflexivity]]. }
      exists f1. rewrite U in *. cbn [length app skipn] in *. rewrite app_nil_r. split; [|destruct (unread f1); [reflexivity|discriminate]]. do 3 f_equal. lia.
    - replace (Z.of_nat nbyte - Z.of_nat (length pre) - Z.of_nat (length bytes) =? 0) with (length pre + length bytes =? nbyte)%nat by lia.
      destruct (length pre + length bytes =? nbyte)%nat eqn:E1.
      + assert (U1 : unread f1 = []) by (destruct (unread f1); [reflexivity|cbn [length] in *; lia]). rewrite U1, app_nil_r in Eu. exists f1. rewrite Eu. split; [|exact U1]. do 3 f_equal. lia.
      + replace (Z.of_nat nbyte - Z.of_nat (length pre) - Z.of_nat (length bytes)) with (Z.of_nat nbyte - Z.of_nat (length (pre ++ bytes))) by (rewrite app_length; lia).
        rewrite <- app_length. destruct (IH f1 (pre ++ bytes) (skipn (length bytes) rest) N1) as (f' & E & U).
        * lia.
        * rewrite app_length. lia.
        * rewrite skipn_length. lia.
        * right. rewrite app_length. lia.
        * exists f'. split; [|exact U]. rewrite E. rewrite Eu at 2. rewrite app_length. rewrite L. rewrite skipn_skipn. rewrite !app_assoc.
          replace (length (unread f1) + length bytes)%nat with (length bytes + length (unread f1))%nat by lia. do 3 f_equal. lia. }
  destruct (G fuel f [] buf N Hf) as (f' & E & U); [cbn [length]; lia|lia|now left|]. exists f'. split; [|exact U]. unfold readN. cbn [length app] in E. rewrite Z.sub_0_r in E. exact E.
Qed.
Print Assumptions C95_fits_partial.
Example C95_fits_ex : exists f', readN 10 (mk_fd [1;2;3;4;5] [Give 2; Give 0; Give 7]) [0;0;0;0;0;0;9] 6 = Ok (5, [1;2;3;4;5;0;9], f') /\ unread f' = [].
Proof. eexists. split; reflexivity. Qed.

(** ** Reads whose lengths add up to nbyte exactly (in particular one read of nbyte
    bytes) give the first nbyte bytes of the file and leave the rest unread. *)
Theorem C95_exact_partial : forall chunks rest f buf nbyte fuel, Forall (fun c => 1 <= c)%nat chunks -> list_sum chunks = nbyte -> (1 <= nbyte)%nat ->
  script f = map Give chunks ++ rest -> (nbyte <= length buf)%nat -> (nbyte <= length (unread f))%nat -> (length chunks <= fuel)%nat ->
  readN fuel f buf nbyte = Ok (Z.of_nat nbyte, filled buf (firstn nbyte (unread f)), mk_fd (skipn nbyte (unread f)) rest).
Proof.
  intros chunks rest f buf nbyte fuel Hc Hs H1 Hf Hb Hu Hfuel.
  assert (G : forall chunks fuel f pre tl, Forall (fun c => 1 <= c)%nat chunks -> (1 <= list_sum chunks)%nat -> (length pre + list_sum chunks = nbyte)%nat -> script f = map Give chunks ++ rest ->
    (list_sum chunks <= length tl)%nat -> (list_sum chunks <= length (unread f))%nat -> (length chunks <= fuel)%nat ->
    readN_loop fuel f (pre ++ tl) nbyte (length pre) (Z.of_nat nbyte - Z.of_nat (length pre)) =
    Ok (Z.of_nat nbyte, (pre ++ firstn (list_sum chunks) (unread f)) ++ skipn (list_sum chunks) tl, mk_fd (skipn (list_sum chunks) (unread f)) rest)).
  { clear. induction chunks as [|c chunks IH]; intros fuel f pre tl Hc H1 Hn Hs Ht Hu Hf; [cbn in H1; lia|]. destruct fuel as [|fuel]; [cbn [length] in Hf; lia|]. cbn [readN_loop].
    assert (C1 := Forall_inv Hc). cbv beta in C1. assert (C2 := Forall_inv_tail Hc). change (list_sum (c :: chunks)) with (c + list_sum chunks)%nat in *. cbn [map app] in Hs.
    unfold sys_read. rewrite Hs. replace (Nat.min nbyte (Nat.max 1 c)) with c by lia.
    assert (Lb : length (firstn c (unread f)) = c) by (rewrite firstn_length; lia). rewrite store_at by lia. cbn [bind]. rewrite Lb. replace (Z.of_nat c =? 0) with false by lia.
    replace (Z.of_nat nbyte - Z.of_nat (length pre) - Z.of_nat c =? 0) with (list_sum chunks =? 0)%nat by lia. destruct (list_sum chunks =? 0)%nat eqn:E0.
    - destruct chunks as [|d chunks]; [|inversion C2; subst; change (list_sum (d :: chunks)) with (d + list_sum chunks)%nat in E0; lia]. cbn [list_sum map app fold_right]. rewrite Nat.add_0_r. reflexivity.
    - replace (Z.of_nat nbyte - Z.of_nat (length pre) - Z.of_nat c) with (Z.of_nat nbyte - Z.of_nat (length (pre ++ firstn c (unread f)))) by (rewrite app_length, Lb; lia).
      replace (length pre + c)%nat with (length (pre ++ firstn c (unread f))) by (rewrite app_length, Lb; lia). rewrite IH; auto; cbn [script unread]; try (rewrite ?app_length, ?skipn_length, ?Lb; cbn [length] in Hf; lia).
      assert (F : forall l : list Z, firstn c l ++ firstn (list_sum chunks) (skipn c l) = firstn (c + list_sum chunks) l).
      { intros l. rewrite <- (firstn_skipn c l) at 3. rewrite firstn_app. rewrite (firstn_all2 (firstn c l)) by (rewrite firstn_length; lia).
        destruct (le_lt_dec c (length l)) as [L|L]; [rewrite firstn_length; replace (c + list_sum chunks - Nat.min c (length l))%nat with (list_sum chunks) by lia; reflexivity|].
        rewrite (skipn_all2 l) by lia. now rewrite !firstn_nil. }
      rewrite <- (app_assoc pre), F. rewrite !skipn_skipn. rewrite (Nat.add_comm (list_sum chunks) c). reflexivity. }
  unfold readN. pose proof (G chunks fuel f [] buf Hc ltac:(lia) ltac:(cbn [length]; lia) Hf ltac:(lia) ltac:(lia) Hfuel) as E. cbn [app length] in E. rewrite Z.sub_0_r in E. rewrite E, Hs.
  unfold filled. rewrite firstn_length. replace (Nat.min nbyte (length (unread f))) with nbyte by lia. reflexivity.
Qed.
Print Assumptions C95_exact_partial.
Example C95_exact_ex : readN 3 (mk_fd [1;2;3;4;5] [Give 1; Give 2; Fail]) [0;0;0] 3 = Ok (3, [1;2;3], mk_fd [4;5] [Fail]).
Proof. reflexivity. Qed.
(** One full read is such a case, whether the kernel was asked before or not. *)
Theorem C95_whole : forall f buf nbyte fuel, script f = [] -> (nbyte <= length buf)%nat -> (1 <= fuel)%nat -> (2 <= fuel \/ nbyte <= length (unread f))%nat ->
  exists f', readN fuel f buf nbyte = Ok (Z.of_nat (Nat.min nbyte (length (unread f))), filled buf (firstn nbyte (unread f)), f') /\ unread f' = skipn nbyte (unread f).
Proof.
  intros f buf nbyte fuel Hs Hb Hf1 Hf. unfold readN. destruct fuel as [|fuel]; [lia|]. cbn [readN_loop]. unfold sys_read at 1. rewrite Hs.
  set (bytes := firstn nbyte (unread f)). assert (Lb : length bytes = Nat.min nbyte (length (unread f))) by apply firstn_length.
  pose proof (store_at [] buf bytes ltac:(lia)) as St. cbn [app length] in St. fold (filled buf bytes) in St. rewrite St. cbn [bind]. rewrite Lb.
  destruct (Z.of_nat (Nat.min nbyte (length (unread f))) =? 0) eqn:E0.
  - exists (mk_fd (skipn nbyte (unread f)) []). split; [|reflexivity]. f_equal. f_equal. f_equal. lia.
  - destruct (Z.of_nat nbyte - Z.of_nat (Nat.min nbyte (length (unread f))) =? 0) eqn:E1.
    + exists (mk_fd (skipn nbyte (unread f)) []). split; [|reflexivity]. f_equal. f_equal. f_equal. lia.
    + destruct fuel as [|fuel]; [lia|]. cbn [readN_loop]. unfold sys_read at 1. cbn [script unread]. rewrite (skipn_all2 (unread f)) by lia. rewrite firstn_nil, skipn_nil.
      cbn [length Nat.add]. unfold store. cbn [length]. rewrite Nat.add_0_r. unfold filled at 1. rewrite app_length, skipn_length. replace (Nat.min nbyte (length (unread f)) <=? length bytes + (length buf - length bytes))%nat with true by lia.
      cbn [bind Z.of_nat Z.eqb app]. rewrite firstn_skipn. exists (mk_fd [] []). split; [|reflexivity]. f_equal. f_equal. f_equal. lia.
Qed.
Print Assumptions C95_whole.
Example C95_whole_ex : exists f', readN 2 (mk_fd [1;2] []) [0;0;0] 3 = Ok (2, [1;2;0], f') /\ unread f' = [].
Proof. eexists. split; reflexivity. Qed.

(** ** False otherwise: on every file with more than nbyte >= 2 bytes left, one short
    read is enough. readN then writes behind a buffer of nbyte bytes; in a larger object
    it overwrites the bytes behind the first nbyte ones and goes on to the end of file,
    returning more than nbyte. *)
Theorem C95_overflow_refuted : forall data nbyte buf fuel, (2 <= nbyte)%nat -> (nbyte < length data)%nat -> length buf = nbyte -> (2 <= fuel)%nat ->
  readN fuel (mk_fd data [Give 1]) buf nbyte = UB.
Proof.
  intros data nbyte buf fuel H2 Hd Hb Hf. unfold readN. destruct fuel as [|[|fuel]]; [lia|lia|]. cbn [readN_loop]. unfold sys_read at 1. cbn [script unread].
  replace (Nat.min nbyte (Nat.max 1 1)) with 1%nat by lia. destruct data as [|d data]; [cbn [length] in Hd; lia|]. cbn [length] in Hd. cbn [firstn skipn].
  assert (St : exists b, store buf 0 [d] = Ok b /\ length b = nbyte).
  { unfold store. cbn [length]. replace (0 + 1 <=? length buf)%nat with true by lia. eexists. split; [reflexivity|]. cbn [firstn app length]. rewrite skipn_length. lia. }
  destruct St as (b & -> & Lb). cbn [bind length]. change (Z.of_nat 1 =? 0) with false. cbv iota. replace (Z.of_nat nbyte - Z.of_nat 1 =? 0) with false by lia.
  cbn [readN_loop]. unfold sys_read at 1. cbn [script unread]. unfold store at 1. rewrite Lb, firstn_length. replace (0 + 1 + Nat.min nbyte (length data) <=? nbyte)%nat with false by lia. reflexivity.
Qed.
Print Assumptions C95_overflow_refuted.
Theorem C95_too_much_refuted : readN 9 (mk_fd [1;2;3;4;5] [Give 1]) [0;0;0;9;9;9;9] 3 = Ok (5, [1;2;3;4;5;9;9], mk_fd [] []).
Proof. reflexivity. Qed.
Print Assumptions C95_too_much_refuted.

(** ** A failing ::read aborts at any point, EINTR included; a scripted failure that is
    reached after some short reads throws away what was read. *)
Theorem C95_error : forall chunks rest f buf nbyte fuel, Forall (fun c => 1 <= c)%nat chunks -> (list_sum chunks < nbyte)%nat ->
  script f = map Give chunks ++ Fail :: rest -> (nbyte <= length buf)%nat -> (list_sum chunks < length (unread f))%nat -> (length chunks < fuel)%nat ->
  readN fuel f buf nbyte = Abort.
Proof.
  intros chunks rest f buf nbyte fuel Hc Hs Hf Hb Hu Hfuel. unfold readN.
  assert (G : forall chunks fuel f buf off, Forall (fun c => 1 <= c)%nat chunks -> (off + list_sum chunks < nbyte)%nat -> script f = map Give chunks ++ Fail :: rest -> (nbyte <= length buf)%nat ->
    (list_sum chunks < length (unread f))%nat -> (length chunks < fuel)%nat -> readN_loop fuel f buf nbyte off (Z.of_nat nbyte - Z.of_nat off) = Abort).
  { clear. induction chunks as [|c chunks IH]; intros fuel f buf off Hc Hs Hf Hb Hu Hfuel; (destruct fuel as [|fuel]; [cbn [length] in Hfuel; lia|]); cbn [readN_loop]; unfold sys_read; rewrite Hf; cbn [map app]; [reflexivity|].
    assert (C1 := Forall_inv Hc). cbv beta in C1. assert (C2 := Forall_inv_tail Hc). change (list_sum (c :: chunks)) with (c + list_sum chunks)%nat in *. replace (Nat.min nbyte (Nat.max 1 c)) with c by lia.
    assert (Lb : length (firstn c (unread f)) = c) by (rewrite firstn_length; lia). unfold store. rewrite Lb. replace (off + c <=? length buf)%nat with true by lia. cbn [bind].
    replace (Z.of_nat c =? 0) with false by lia. replace (Z.of_nat nbyte - Z.of_nat off - Z.of_nat c =? 0) with false by lia.
    replace (Z.of_nat nbyte - Z.of_nat off - Z.of_nat c) with (Z.of_nat nbyte - Z.of_nat (off + c)) by lia. apply IH; auto; cbn [script unread]; rewrite ?app_length, ?firstn_length, ?skipn_length, ?Lb; cbn [length] in Hfuel; try lia. }
  pose proof (G chunks fuel f buf 0%nat Hc ltac:(lia) Hf Hb Hu Hfuel) as E. rewrite Z.sub_0_r in E. exact E.
Qed.
Print Assumptions C95_error.
Example C95_error_ex : readN 5 (mk_fd [1;2;3] [Give 1; Fail]) [0;0] 2 = Abort.
Proof. reflexivity. Qed.

(** ** read0 succeeds exactly when a single ::read hands out all the bytes wanted; it
    never writes outside the first nbyte bytes. *)
Theorem C95_read0 : forall f buf nbyte, (nbyte <= length buf)%nat ->
  (exists buf' f', p_read0 f buf nbyte = Ok (buf', f') /\ buf' = filled buf (firstn nbyte (unread f)) /\ unread f' = skipn nbyte (unread f) /\ (nbyte <= length (unread f))%nat /\
     match script f with [] => True | Fail :: _ => False | Give k :: _ => (nbyte <= Nat.max 1 k)%nat end) \/
  (p_read0 f buf nbyte = Abort /\
     match script f with [] => (length (unread f) < nbyte)%nat | Fail :: _ => True | Give k :: _ => (Nat.min (Nat.max 1 k) (length (unread f)) < nbyte)%nat end).
Proof.
  intros f buf nbyte Hb. unfold p_read0, sys_read.
  assert (St : forall m, (m <= nbyte)%nat -> store buf 0 (firstn m (unread f)) = Ok (filled buf (firstn m (unread f)))).
  { intros m Hm. apply (store_at [] buf). rewrite firstn_length. lia. }
  destruct (script f) as [|[k|] r].
  - rewrite St by lia. cbn [bind]. rewrite firstn_length. destruct (Nat.min nbyte (length (unread f)) =? nbyte)%nat eqn:E; cbn [bind invariant].
    + left. eexists _, _. split; [reflexivity|]. cbn [unread]. repeat split; auto. lia.
    + right. split; [reflexivity|lia].
  - rewrite St by lia. cbn [bind]. rewrite firstn_length. set (m := Nat.min nbyte (Nat.max 1 k)). destruct (Nat.min m (length (unread f)) =? nbyte)%nat eqn:E; cbn [bind invariant].
    + left. assert (m = nbyte) by (subst m; lia). eexists _, _. split; [reflexivity|]. cbn [unread]. rewrite H. repeat split; auto; lia.
    + right. split; [reflexivity|subst m; lia].
  - right. auto.
Qed.
Print Assumptions C95_read0.
Example C95_read0_ex : p_read0 (mk_fd [1;2;3] [Give 5]) [0;0;0;0] 2 = Ok ([1;2;0;0], mk_fd [3] []) /\ p_read0 (mk_fd [1;2;3] [Give 1]) [0;0;0;0] 2 = Abort.
Proof. split; reflexivity. Qed.

(** ** read hands on what ::read gave: a prefix of what was unread, at most nbyte bytes,
    none only at the end of the file (or when none were wanted); a failure aborts. *)
Theorem C95_read : forall f buf nbyte, (nbyte <= length buf)%nat ->
  (exists r, script f = Fail :: r /\ p_read f buf nbyte = Abort) \/
  exists bytes f', p_read f buf nbyte = Ok (Z.of_nat (length bytes), filled buf bytes, f') /\ unread f = bytes ++ unread f' /\ (length bytes <= nbyte)%nat /\
    ((1 <= nbyte)%nat -> bytes = [] -> unread f = []).
Proof.
  intros f buf nbyte Hb. unfold p_read, sys_read. destruct (script f) as [|[k|] r]; [right|right|left; eauto].
  - exists (firstn nbyte (unread f)). eexists. rewrite (store_at [] buf) by (rewrite firstn_length; lia). split; [reflexivity|]. cbn [unread]. rewrite firstn_skipn, firstn_length. split; [reflexivity|]. split; [lia|].
    intros H E. destruct (unread f); [reflexivity|]. destruct nbyte; [lia|discriminate].
  - set (m := Nat.min nbyte (Nat.max 1 k)). exists (firstn m (unread f)). eexists. rewrite (store_at [] buf) by (rewrite firstn_length; lia). split; [reflexivity|]. cbn [unread]. rewrite firstn_skipn, firstn_length. split; [reflexivity|].
    split; [lia|]. intros H E. destruct (unread f); [reflexivity|]. destruct m eqn:Em; [lia|discriminate].
Qed.
Print Assumptions C95_read.
Example C95_read_ex : p_read (mk_fd [1;2;3] [Give 2]) [0;0;0;0] 3 = Ok (2, [1;2;0;0], mk_fd [3] []).
Proof. reflexivity. Qed.
