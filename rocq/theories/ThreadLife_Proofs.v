(** The invariant behind the theorems on the life of threads. *)
From Coq Require Import List Arith ZArith Bool Lia.
From Verif Require Import Common CommonFacts ThreadLife_Model ThreadLife_Spec.
Import ListNotations.

Definition obj_ok (h : list seen) (o : nat) (p : pthread) : Prop :=
  In (SNew o (nosig p)) h /\ (thread_live p = true -> running o h <> None /\ last_tid p = running o h) /\
  (thread_live p = false -> running o h = None) /\ (destroyed p = true <-> In (SDestroyed o) h).
Definition thread_ok (h : list seen) (t : nat) (th : thread) : Prop :=
  In (SStarted (t_obj th) t (t_mask th)) h /\
  match t_progress th with
  | Ready => running (t_obj th) h = Some t /\ begins t h = 0 /\ returned t h = None
  | Running => running (t_obj th) h = Some t /\ begins t h = 1 /\ returned t h = None
  | Returned v => running (t_obj th) h = Some t /\ begins t h = 1 /\ returned t h = Some v /\ t_detached th = false
  | Gone => begins t h = 1 /\ returned t h <> None /\ (t_detached th = false -> running (t_obj th) h <> Some t)
  end.
Record inv (s : state) (h : list seen) : Prop := {
  i_obj : forall o p, nth_error (objs s) o = Some p -> obj_ok h o p;
  i_new : forall o ns, In (SNew o ns) h -> exists p, nth_error (objs s) o = Some p /\ nosig p = ns;
  i_thread : forall t th, nth_error (threads s) t = Some th -> thread_ok h t th;
  i_started : forall o t m, In (SStarted o t m) h -> exists th, nth_error (threads s) t = Some th /\ t_obj th = o /\ t_mask th = m;
  i_running : forall o t, running o h = Some t -> exists m, In (SStarted o t m) h;
  i_none : forall o t, running o h = Some t -> exists p, nth_error (objs s) o = Some p;
  i_gone : forall o, In (SDestroyed o) h -> exists p, nth_error (objs s) o = Some p;
  i_fresh : forall t, length (threads s) <= t -> begins t h = 0 /\ returned t h = None
}.

Lemma inv_start : inv state0 [].
Proof.
  constructor; cbn; try (intros; contradiction); try discriminate; auto.
  - intros o p E. destruct o; discriminate E.
  - intros t th E. destruct t; discriminate E.
Qed.

(** Entries that say nothing about threads and objects. *)
Definition quiet (x : seen) : Prop :=
  match x with SMask _ | SKilled _ _ _ | SDetach _ _ | SThrew _ => True | _ => False end.
Lemma quiet_running x o h : quiet x -> running o (x :: h) = running o h.
Proof. destruct x; cbn; tauto. Qed.
Lemma quiet_returned x t h : quiet x -> returned t (x :: h) = returned t h.
Proof. destruct x; cbn; tauto. Qed.
Lemma quiet_begins x t h : quiet x -> begins t (x :: h) = begins t h.
Proof. destruct x; cbn; tauto. Qed.
Lemma quiet_in x y h : quiet x -> ~ quiet y -> (In y (x :: h) <-> In y h).
Proof. intros Q N. split; [intros [->|H]; tauto|now right]. Qed.
Lemma quiet_obj x h o p : quiet x -> obj_ok h o p -> obj_ok (x :: h) o p.
Proof.
  intros Q H. unfold obj_ok. rewrite (quiet_running x o h Q), (quiet_in x _ h Q), (quiet_in x _ h Q) by (cbn; tauto). exact H.
Qed.
Lemma quiet_thread x h t th : quiet x -> thread_ok h t th -> thread_ok (x :: h) t th.
Proof.
  intros Q H. unfold thread_ok. rewrite (quiet_running x _ h Q), (quiet_in x _ h Q), (quiet_returned x _ h Q), (quiet_begins x _ h Q) by (cbn; tauto). exact H.
Qed.
(** The client's own mask and the detach attributes do not matter. *)
Lemma inv_quiet s h s' x : quiet x -> inv s h -> threads s' = threads s ->
  (forall o, match nth_error (objs s) o, nth_error (objs s') o with
     | Some p, Some p' => nosig p' = nosig p /\ thread_live p' = thread_live p /\ last_tid p' = last_tid p /\ destroyed p' = destroyed p
     | None, None => True | _, _ => False end) -> inv s' (x :: h).
Proof.
  intros Q I Et Eo. constructor; rewrite ?Et.
  - intros o p E. specialize (Eo o). rewrite E in Eo. destruct (nth_error (objs s) o) as [p0|] eqn:E0; [|contradiction].
    apply quiet_obj; [exact Q|]. destruct Eo as (A & B & C & D). pose proof (i_obj _ _ I o p0 E0) as H. unfold obj_ok in *. now rewrite A, B, C, D.
  - intros o ns E. apply quiet_in in E; [|exact Q|cbn; tauto]. destruct (i_new _ _ I o ns E) as (p & E0 & N). specialize (Eo o). rewrite E0 in Eo. destruct (nth_error (objs s') o) as [p'|]; [|contradiction]. exists p'. split; [reflexivity|]. destruct Eo as (A & _). congruence.
  - intros t th E. apply quiet_thread; [exact Q|]. now apply (i_thread _ _ I).
  - intros o t m E. apply quiet_in in E; [|exact Q|cbn; tauto]. now apply (i_started _ _ I).
  - intros o t E. rewrite quiet_running in E by exact Q. destruct (i_running _ _ I o t E) as (m & H). exists m. now right.
  - intros o t E. rewrite quiet_running in E by exact Q. destruct (i_none _ _ I o t E) as (p & E0). specialize (Eo o). rewrite E0 in Eo. destruct (nth_error (objs s') o) as [p'|]; [eauto|contradiction].
  - intros o E. apply quiet_in in E; [|exact Q|cbn; tauto]. destruct (i_gone _ _ I o E) as (p & E0). specialize (Eo o). rewrite E0 in Eo. destruct (nth_error (objs s') o) as [p'|]; [eauto|contradiction].
  - intros t E. rewrite quiet_returned, quiet_begins by exact Q. now apply (i_fresh _ _ I).
Qed.
Lemma same_objs s s' : objs s' = objs s -> forall o, match nth_error (objs s) o, nth_error (objs s') o with
     | Some p, Some p' => nosig p' = nosig p /\ thread_live p' = thread_live p /\ last_tid p' = last_tid p /\ destroyed p' = destroyed p
     | None, None => True | _, _ => False end.
Proof. intros -> o. destruct (nth_error (objs s) o); auto. Qed.

Lemma on_next s o f s' x : on s o f = Next s' x -> exists p, nth_error (objs s) o = Some p /\ destroyed p = false /\ f p = Next s' x.
Proof. unfold on. destruct (nth_error (objs s) o) as [p|]; [|discriminate]. destruct (destroyed p) eqn:D; [discriminate|]. eauto. Qed.

(** The thread an object is running. *)
Lemma running_thread s h o t : inv s h -> running o h = Some t -> exists th, nth_error (threads s) t = Some th /\ t_obj th = o.
Proof. intros I E. destruct (i_running _ _ I o t E) as (m & H). destruct (i_started _ _ I o t m H) as (th & E1 & E2 & _). eauto. Qed.


(** Entries for one object leave the others alone. *)
Lemma obj_other h x o p : obj_ok h o p -> running o (x :: h) = running o h -> x <> SDestroyed o -> obj_ok (x :: h) o p.
Proof.
  intros (A & B & C & D) R N. unfold obj_ok. rewrite R. split; [now right|]. split; [exact B|]. split; [exact C|]. rewrite D.
  split; [now right|intros [X|X]; [contradiction|exact X]].
Qed.
Lemma thread_other h x t th : thread_ok h t th -> running (t_obj th) (x :: h) = running (t_obj th) h ->
  begins t (x :: h) = begins t h -> returned t (x :: h) = returned t h -> thread_ok (x :: h) t th.
Proof. intros (A & B) R1 R2 R3. unfold thread_ok. rewrite R1, R2, R3. split; [now right|exact B]. Qed.
Lemma app_nth {A} (l : list A) (a b : A) i : nth_error (l ++ [a]) i = Some b ->
  (i < length l /\ nth_error l i = Some b) \/ (i = length l /\ b = a).
Proof.
  intros E. destruct (Nat.lt_ge_cases i (length l)) as [L|L]; [rewrite nth_error_app1 in E by exact L; auto|].
  rewrite nth_error_app2 in E by exact L. destruct (i - length l) as [|k] eqn:K; [|destruct k; discriminate E]. injection E as <-. right. split; [lia|reflexivity].
Qed.
Lemma app_nth1 {A} (l : list A) (a b : A) i : nth_error l i = Some b -> nth_error (l ++ [a]) i = Some b.
Proof. intros E. rewrite nth_error_app1; [exact E|]. apply nth_error_Some. congruence. Qed.
Lemma upd_nth {A} (l : list A) (a b : A) i j : nth_error (upd l i a) j = Some b -> (j = i /\ b = a) \/ (j <> i /\ nth_error l j = Some b).
Proof.
  intros E. rewrite nth_error_upd in E. destruct (Nat.eqb_spec i j) as [->|N]; cbn [andb] in E; [|auto].
  destruct (Nat.ltb_spec j (length l)) as [L|L]; [injection E as <-; auto|]. apply nth_error_None in L. congruence.
Qed.
Lemma upd_some {A} (l : list A) (a b : A) i j : nth_error l j = Some b -> exists c, nth_error (upd l i a) j = Some c /\ (j <> i -> c = b) /\ (j = i -> c = a).
Proof.
  intros E. rewrite nth_error_upd. assert (L : j < length l) by (apply nth_error_Some; congruence). destruct (Nat.eqb_spec i j) as [->|N]; cbn [andb].
  - destruct (Nat.ltb_spec j (length l)); [|lia]. exists a. tauto.
  - exists b. split; [exact E|]. split; [reflexivity|]. intros ->. now destruct N.
Qed.

Lemma inv_new s h ns s' x : inv s h -> construct ns s = Next s' x -> inv s' (x :: h).
Proof.
  intros I E. unfold construct in E. injection E as <- <-.
  constructor; cbn [objs threads].
  - intros o p E. apply app_nth in E as [(L & E)|(-> & ->)].
    + apply obj_other; [now apply (i_obj _ _ I)|reflexivity|discriminate].
    + assert (N : nth_error (objs s) (length (objs s)) = None) by (apply nth_error_None; lia).
      split; [now left|]. cbn. split; [discriminate|]. split.
      * intros _. destruct (running _ h) as [t|] eqn:R; [|reflexivity]. destruct (i_none _ _ I _ t R) as (p & E). congruence.
      * split; [discriminate|]. intros [X|X]; [discriminate X|]. destruct (i_gone _ _ I _ X) as (p & E). congruence.
  - intros o ns' [E|E].
    + injection E as <- <-. eexists. split; [rewrite nth_error_app2, Nat.sub_diag by lia; reflexivity|reflexivity].
    + destruct (i_new _ _ I o ns' E) as (p & E0 & N). exists p. split; [now apply app_nth1|exact N].
  - intros t th E. apply thread_other; try reflexivity. now apply (i_thread _ _ I).
  - intros o t m [E|E]; [discriminate E|]. now apply (i_started _ _ I).
  - intros o t E. cbn in E. destruct (i_running _ _ I o t E) as (m & H). exists m. now right.
  - intros o t E. cbn in E. destruct (i_none _ _ I o t E) as (p & H). exists p. now apply app_nth1.
  - intros o [E|E]; [discriminate E|]. destruct (i_gone _ _ I o E) as (p & H). exists p. now apply app_nth1.
  - intros t L. cbn. now apply (i_fresh _ _ I).
Qed.

Lemma inv_destroy s h o s' x : inv s h -> destruct_ o s = Next s' x -> inv s' (x :: h).
Proof.
  intros I E. apply on_next in E as (p & Ep & D & E). injection E as <- <-.
  constructor; cbn [objs threads set_obj].
  - intros o' p' E. apply upd_nth in E as [(-> & ->)|(N & E)].
    + destruct (i_obj _ _ I o p Ep) as (A & B & C & _). split; [right; exact A|]. cbn. split; [exact B|]. split; [exact C|]. split; [now left|reflexivity].
    + apply obj_other; [now apply (i_obj _ _ I)|reflexivity|congruence].
  - intros o' ns [E|E]; [discriminate E|]. destruct (i_new _ _ I o' ns E) as (p' & E0 & N).
    destruct (upd_some (objs s) (PT (nosig p) (thread_live p) (last_tid p) (detached p) true) p' o o' E0) as (c & Ec & N1 & N2).
    exists c. split; [exact Ec|]. destruct (Nat.eq_dec o' o) as [->|X]; [rewrite (N2 eq_refl); cbn; congruence|rewrite (N1 X); exact N].
  - intros t th E. apply thread_other; try reflexivity. now apply (i_thread _ _ I).
  - intros o' t m [E|E]; [discriminate E|]. now apply (i_started _ _ I).
  - intros o' t E. cbn in E. destruct (i_running _ _ I o' t E) as (m & H). exists m. now right.
  - intros o' t E. cbn in E. destruct (i_none _ _ I o' t E) as (p' & H). eapply upd_some in H as (c & Ec & _). eauto.
  - intros o' [E|E].
    + injection E as <-. eapply upd_some in Ep as (c & Ec & _). eauto.
    + destruct (i_gone _ _ I o' E) as (p' & H). eapply upd_some in H as (c & Ec & _). eauto.
  - intros t L. cbn. now apply (i_fresh _ _ I).
Qed.

(** A new thread. *)
Lemma inv_started s h o p m m' : inv s h -> nth_error (objs s) o = Some p -> thread_live p = false ->
  inv (ST (upd (objs s) o (PT (nosig p) true (Some (length (threads s))) (detached p) (destroyed p))) (threads s ++ [TH o m (detached p) Ready]) m')
    (SStarted o (length (threads s)) m :: h).
Proof.
  intros I Ep Lv. destruct (i_obj _ _ I o p Ep) as (A & _ & C & D). specialize (C Lv).
  constructor; cbn [objs threads].
  - intros o' p' E. apply upd_nth in E as [(-> & ->)|(N & E)].
    + split; [right; exact A|]. cbn. rewrite Nat.eqb_refl. split; [intros _; split; [discriminate|reflexivity]|]. split; [discriminate|]. rewrite D. split; [now right|intros [X|X]; [discriminate X|exact X]].
    + apply obj_other; [now apply (i_obj _ _ I)| |discriminate]. cbn. destruct (Nat.eqb_spec o o'); [congruence|reflexivity].
  - intros o' ns [E|E]; [discriminate E|]. destruct (i_new _ _ I o' ns E) as (p' & E0 & N).
    destruct (upd_some (objs s) (PT (nosig p) true (Some (length (threads s))) (detached p) (destroyed p)) p' o o' E0) as (c & Ec & N1 & N2).
    exists c. split; [exact Ec|]. destruct (Nat.eq_dec o' o) as [->|X]; [rewrite (N2 eq_refl); cbn; congruence|rewrite (N1 X); exact N].
  - intros t th E. apply app_nth in E as [(L & E)|(-> & ->)].
    + pose proof (i_thread _ _ I t th E) as H. destruct (Nat.eq_dec (t_obj th) o) as [Eo|No].
      * destruct H as (H1 & H2). split; [now right|]. cbn. rewrite Eo in *. rewrite Nat.eqb_refl. destruct (t_progress th); try (destruct H2 as (H2 & _); congruence).
        destruct H2 as (H2 & H3 & H4). split; [exact H2|]. split; [exact H3|]. intros _ X. injection X as X. lia.
      * apply thread_other; try reflexivity; [exact H|]. cbn. destruct (Nat.eqb_spec o (t_obj th)); [congruence|reflexivity].
    + split; [now left|]. cbn. rewrite Nat.eqb_refl. destruct (i_fresh _ _ I (length (threads s)) (Nat.le_refl _)). auto.
  - intros o' t m1 [E|E].
    + injection E as <- <- <-. eexists. split; [rewrite nth_error_app2, Nat.sub_diag by lia; reflexivity|]. split; reflexivity.
    + destruct (i_started _ _ I o' t m1 E) as (th & E1 & E2). exists th. split; [now apply app_nth1|exact E2].
  - intros o' t E. cbn in E. destruct (Nat.eqb_spec o o') as [<-|N].
    + injection E as <-. exists m. now left.
    + destruct (i_running _ _ I o' t E) as (m1 & H). exists m1. now right.
  - intros o' t E. cbn in E. destruct (Nat.eqb_spec o o') as [<-|N].
    + eapply upd_some in Ep as (c & Ec & _). eauto.
    + destruct (i_none _ _ I o' t E) as (p' & H). eapply upd_some in H as (c & Ec & _). eauto.
  - intros o' [E|E]; [discriminate E|]. destruct (i_gone _ _ I o' E) as (p' & H). eapply upd_some in H as (c & Ec & _). eauto.
  - intros t L. cbn. apply (i_fresh _ _ I). rewrite app_length in L. cbn in L. lia.
Qed.

(** What start() does: an exception that leaves everything but perhaps the mask, or a new thread. *)
Lemma start_cases s o ret s' x : start o ret s = Next s' x -> exists p, nth_error (objs s) o = Some p /\ destroyed p = false /\
  (((thread_live p = true \/ ret <> 0%Z) /\ x = SThrew o /\ objs s' = objs s /\ threads s' = threads s /\ mask s' = (if nosig p then Z.lor (mask s) filled else mask s)) \/
   (thread_live p = false /\ ret = 0%Z /\ exists m, m = (if nosig p then Z.lor (mask s) filled else mask s) /\
     s' = ST (upd (objs s) o (PT (nosig p) true (Some (length (threads s))) (detached p) (destroyed p))) (threads s ++ [TH o m (detached p) Ready]) (mask s) /\
     x = SStarted o (length (threads s)) m)).
Proof.
  intros E. apply on_next in E as (p & Ep & D & E). exists p. split; [exact Ep|]. split; [exact D|].
  destruct (nosig p) eqn:N; cbn in E.
  - unfold start_nosig, start_plain in E. destruct (thread_live p) eqn:Lv; [injection E as <- <-; left; cbn; auto|].
    destruct (Z.eqb_spec ret 0) as [R|R]; cbn in E; injection E as <- <-; [right|left; cbn; auto].
    rewrite N. split; [reflexivity|]. split; [exact R|]. eexists. split; [reflexivity|]. split; reflexivity.
  - unfold start_plain in E. destruct (thread_live p) eqn:Lv; [injection E as <- <-; left; cbn; auto|].
    destruct (Z.eqb_spec ret 0) as [R|R]; cbn in E; injection E as <- <-; [right|left; cbn; auto].
    rewrite N. split; [reflexivity|]. split; [exact R|]. eexists. split; [reflexivity|]. split; reflexivity.
Qed.

(** What join() does. *)
Lemma join_cases s o s' x : join o s = Next s' x -> exists p, nth_error (objs s) o = Some p /\ destroyed p = false /\
  ((thread_live p = false /\ x = SThrew o /\ s' = s) \/
   (thread_live p = true /\ exists t th v, last_tid p = Some t /\ nth_error (threads s) t = Some th /\ t_detached th = false /\ t_progress th = Returned v /\
     s' = ST (upd (objs s) o (PT (nosig p) false (last_tid p) (detached p) (destroyed p))) (upd (threads s) t (TH (t_obj th) (t_mask th) (t_detached th) Gone)) (mask s) /\
     x = SJoined o v)).
Proof.
  intros E. apply on_next in E as (p & Ep & D & E). exists p. split; [exact Ep|]. split; [exact D|].
  destruct (thread_live p) eqn:Lv; cbn [negb] in E; [|injection E as <- <-; auto]. right. split; [reflexivity|].
  destruct (last_tid p) as [t|] eqn:T; [|discriminate E]. cbn in E. destruct (nth_error (threads s) t) as [th|] eqn:Et; [|discriminate E].
  destruct (t_detached th) eqn:Dt; [discriminate E|]. destruct (t_progress th) as [| |v|] eqn:Pr; cbn in E; try discriminate E; rewrite Pr in E; try discriminate E.
  injection E as <- <-. exists t, th, v. rewrite Dt. repeat (split; [reflexivity || assumption|]). reflexivity.
Qed.

Lemma inv_join s h o s' x : inv s h -> join o s = Next s' x -> inv s' (x :: h).
Proof.
  intros I E. apply join_cases in E as (p & Ep & D & [(_ & -> & ->)|(Lv & t & th & v & T & Et & Dt & Pr & -> & ->)]).
  { apply (inv_quiet s); cbn; auto. now apply same_objs. }
  destruct (i_obj _ _ I o p Ep) as (A & B & _ & Dd). destruct (B Lv) as (_ & R). rewrite T in R. symmetry in R.
  pose proof (i_thread _ _ I t th Et) as (H1 & H2). rewrite Pr in H2. destruct H2 as (H2 & H3 & H4 & _).
  assert (To : t_obj th = o). { destruct (running_thread s h o t I R) as (th' & E' & <-). congruence. }
  constructor; cbn [objs threads].
  - intros o' p' E. apply upd_nth in E as [(-> & ->)|(N & E)].
    + split; [right; exact A|]. cbn. rewrite Nat.eqb_refl. split; [discriminate|]. split; [reflexivity|]. rewrite Dd. split; [now right|intros [X|X]; [discriminate X|exact X]].
    + apply obj_other; [now apply (i_obj _ _ I)| |discriminate]. cbn. destruct (Nat.eqb_spec o o'); [congruence|reflexivity].
  - intros o' ns [E|E]; [discriminate E|]. destruct (i_new _ _ I o' ns E) as (p' & E0 & N).
    destruct (upd_some (objs s) (PT (nosig p) false (last_tid p) (detached p) (destroyed p)) p' o o' E0) as (c & Ec & N1 & N2).
    exists c. split; [exact Ec|]. destruct (Nat.eq_dec o' o) as [->|X]; [rewrite (N2 eq_refl); cbn; congruence|rewrite (N1 X); exact N].
  - intros t' th' E. apply upd_nth in E as [(-> & ->)|(N & E)].
    + split; [right; exact H1|]. cbn. rewrite To, Nat.eqb_refl. split; [exact H3|]. split; [congruence|]. discriminate.
    + pose proof (i_thread _ _ I t' th' E) as H. destruct (Nat.eq_dec (t_obj th') o) as [Eo|No].
      * destruct H as (H5 & H6). split; [now right|]. cbn. rewrite Eo in *. rewrite Nat.eqb_refl.
        destruct (t_progress th'); try (destruct H6 as (H6 & _); congruence).
        destruct H6 as (H6 & H7 & _). split; [exact H6|]. split; [exact H7|]. discriminate.
      * apply thread_other; try reflexivity; [exact H|]. cbn. destruct (Nat.eqb_spec o (t_obj th')); [congruence|reflexivity].
  - intros o' t' m [E|E]; [discriminate E|]. destruct (i_started _ _ I o' t' m E) as (th' & E1 & E2 & E3).
    destruct (upd_some (threads s) (TH (t_obj th) (t_mask th) (t_detached th) Gone) th' t t' E1) as (c & Ec & N1 & N2). exists c. split; [exact Ec|].
    destruct (Nat.eq_dec t' t) as [->|X]; [rewrite (N2 eq_refl); cbn; assert (th' = th) by congruence; subst th'; auto|rewrite (N1 X); auto].
  - intros o' t' E. cbn in E. destruct (Nat.eqb_spec o o') as [<-|N]; [discriminate E|]. destruct (i_running _ _ I o' t' E) as (m1 & H). exists m1. now right.
  - intros o' t' E. cbn in E. destruct (Nat.eqb_spec o o') as [<-|N]; [discriminate E|]. destruct (i_none _ _ I o' t' E) as (p' & H). eapply upd_some in H as (c & Ec & _). eauto.
  - intros o' [E|E]; [discriminate E|]. destruct (i_gone _ _ I o' E) as (p' & H). eapply upd_some in H as (c & Ec & _). eauto.
  - intros t' L. cbn. apply (i_fresh _ _ I). rewrite length_upd in L. exact L.
Qed.

(** A thread goes on. *)
Lemma inv_progress s h t th pr x : inv s h -> nth_error (threads s) t = Some th ->
  x = SBegan t \/ (exists v, x = SReturned t v) ->
  thread_ok (x :: h) t (TH (t_obj th) (t_mask th) (t_detached th) pr) ->
  inv (set_thread s t (TH (t_obj th) (t_mask th) (t_detached th) pr)) (x :: h).
Proof.
  intros I Et X K. assert (R : forall o, running o (x :: h) = running o h) by (intros o; destruct X as [->|(v & ->)]; reflexivity).
  assert (Bo : forall t', t' <> t -> begins t' (x :: h) = begins t' h /\ returned t' (x :: h) = returned t' h).
  { intros t' N. destruct X as [->|(v & ->)]; cbn; (destruct (Nat.eqb_spec t t'); [congruence|auto]). }
  constructor; cbn [objs threads set_thread].
  - intros o p E. apply obj_other; [now apply (i_obj _ _ I)|apply R|]. destruct X as [->|(v & ->)]; discriminate.
  - intros o ns [E|E]; [destruct X as [->|(v & ->)]; discriminate E|]. now apply (i_new _ _ I).
  - intros t' th' E. apply upd_nth in E as [(-> & ->)|(N & E)]; [exact K|]. destruct (Bo t' N). apply thread_other; auto. now apply (i_thread _ _ I).
  - intros o t' m [E|E]; [destruct X as [->|(v & ->)]; discriminate E|]. destruct (i_started _ _ I o t' m E) as (th' & E1 & E2 & E3).
    destruct (upd_some (threads s) (TH (t_obj th) (t_mask th) (t_detached th) pr) th' t t' E1) as (c & Ec & N1 & N2). exists c. split; [exact Ec|].
    destruct (Nat.eq_dec t' t) as [->|X']; [rewrite (N2 eq_refl); cbn; assert (th' = th) by congruence; subst th'; auto|rewrite (N1 X'); auto].
  - intros o t' E. rewrite R in E. destruct (i_running _ _ I o t' E) as (m & H). exists m. now right.
  - intros o t' E. rewrite R in E. now apply (i_none _ _ I o t').
  - intros o [E|E]; [destruct X as [->|(v & ->)]; discriminate E|]. now apply (i_gone _ _ I).
  - intros t' L. rewrite length_upd in L. assert (t' <> t) by (intros ->; apply nth_error_None in L; congruence). destruct (Bo t' H) as (-> & ->). now apply (i_fresh _ _ I).
Qed.
Lemma inv_begin s h t s' x : inv s h -> begin t s = Next s' x -> x = SBegan t /\ inv s' (x :: h).
Proof.
  unfold begin. intros I E. destruct (nth_error (threads s) t) as [th|] eqn:Et; [|discriminate E]. destruct (t_progress th) eqn:Pr; try discriminate E.
  apply on_next in E as (p & Ep & D & E). injection E as <- <-. split; [reflexivity|]. destruct (i_thread _ _ I t th Et) as (H1 & H2). rewrite Pr in H2. destruct H2 as (H2 & H3 & H4).
  apply inv_progress; auto. split; [right; exact H1|]. cbn. rewrite Nat.eqb_refl, H3. auto.
Qed.
Lemma inv_finish s h t v s' x : inv s h -> finish t v s = Next s' x -> x = SReturned t v /\ inv s' (x :: h).
Proof.
  unfold finish. intros I E. destruct (nth_error (threads s) t) as [th|] eqn:Et; [|discriminate E]. destruct (t_progress th) eqn:Pr; try discriminate E.
  apply on_next in E as (p & Ep & D & E). injection E as <- <-. split; [reflexivity|]. destruct (i_thread _ _ I t th Et) as (H1 & H2). rewrite Pr in H2. destruct H2 as (H2 & H3 & H4).
  apply inv_progress; eauto. split; [right; exact H1|]. cbn. rewrite Nat.eqb_refl. destruct (t_detached th); auto. split; [exact H3|]. split; [discriminate|discriminate].
Qed.
Lemma kill_cases s o rc s' x : kill o rc s = Next s' x -> exists p t th, nth_error (objs s) o = Some p /\ destroyed p = false /\ last_tid p = Some t /\
  nth_error (threads s) t = Some th /\ t_progress th <> Gone /\ s' = s /\ (x = SThrew o \/ x = SKilled o t rc).
Proof.
  intros E. apply on_next in E as (p & Ep & D & E). destruct (last_tid p) as [t|] eqn:T; [|discriminate E]. destruct (nth_error (threads s) t) as [th|] eqn:Et; [|discriminate E].
  assert (X : t_progress th <> Gone /\ (if (rc =? EINVAL)%Z then Next s (SThrew o) else Next s (SKilled o t rc)) = Next s' x) by (destruct (t_progress th); [| | |discriminate E]; split; (discriminate || exact E)).
  destruct X as (X & Y). exists p, t, th. repeat (split; [assumption|]). destruct (rc =? EINVAL)%Z; injection Y as <- <-; auto.
Qed.

Theorem inv_step s h e s' x : inv s h -> step s e = Next s' x -> inv s' (x :: h).
Proof.
  intros I E. destruct e as [ns|m|o b|o ret|o|o rc|o|t|t v]; cbn [step] in E.
  - now apply (inv_new s h ns).
  - injection E as <- <-. apply (inv_quiet s); cbn; auto. now apply same_objs.
  - apply on_next in E as (p & Ep & D & E). injection E as <- <-. apply (inv_quiet s); cbn; auto. intros o'.
    rewrite nth_error_upd. destruct (Nat.eqb_spec o o') as [<-|N]; cbn [andb].
    + rewrite Ep. destruct (Nat.ltb_spec o (length (objs s))) as [L|L]; [cbn; auto|apply nth_error_None in L; congruence].
    + destruct (nth_error (objs s) o'); auto.
  - apply start_cases in E as (p & Ep & D & [(_ & -> & E1 & E2 & _)|(Lv & _ & m & _ & -> & ->)]).
    + apply (inv_quiet s); cbn; auto. now apply same_objs.
    + now apply inv_started.
  - now apply (inv_join s h o).
  - apply kill_cases in E as (p & t & th & _ & _ & _ & _ & _ & -> & [->| ->]); (apply (inv_quiet s); cbn; auto; now apply same_objs).
  - now apply (inv_destroy s h o).
  - now apply (inv_begin s h t).
  - now apply (inv_finish s h t v).
Qed.
Theorem inv_leads evs s h : leads evs s h -> inv s h.
Proof. induction 1; [apply inv_start|eauto using inv_step]. Qed.
Lemma politely_leads evs s h : politely evs s h -> leads evs s h.
Proof. induction 1; econstructor; eauto. Qed.

(** An object that is alive. *)
Lemma alive_obj s h o : inv s h -> alive o h -> exists p, nth_error (objs s) o = Some p /\ destroyed p = false.
Proof.
  intros I ((ns & H) & N). destruct (i_new _ _ I o ns H) as (p & E & _). exists p. split; [exact E|].
  destruct (i_obj _ _ I o p E) as (_ & _ & _ & D). destruct (destroyed p) eqn:X; [|reflexivity]. exfalso. tauto.
Qed.
Lemma obj_alive s h o p : inv s h -> nth_error (objs s) o = Some p -> destroyed p = false -> alive o h.
Proof.
  intros I E D. destruct (i_obj _ _ I o p E) as (A & _ & _ & X). split; [eauto|]. intros H. apply X in H. congruence.
Qed.
Lemma live_running s h o p : inv s h -> nth_error (objs s) o = Some p -> (thread_live p = true <-> running o h <> None).
Proof.
  intros I E. destruct (i_obj _ _ I o p E) as (_ & B & C & _). split; [intros L; apply (B L)|]. intros N. destruct (thread_live p); [reflexivity|]. destruct N. now apply C.
Qed.

(** Politeness keeps threads joinable and the objects of running threads alive. *)
Definition joinable (s : state) (h : list seen) : Prop :=
  (forall o p, nth_error (objs s) o = Some p -> detached p = false) /\
  (forall t th, nth_error (threads s) t = Some th -> t_detached th = false) /\
  (forall o t, running o h = Some t -> alive o h).
Lemma alive_cons o h x : alive o h -> x <> SDestroyed o -> alive o (x :: h).
Proof. intros ((ns & A) & B) N. split; [exists ns; now right|]. intros [E|E]; [contradiction|auto]. Qed.
Lemma joinable_step s h e s' x : inv s h -> joinable s h -> polite h e -> step s e = Next s' x -> joinable s' (x :: h).
Proof.
  intros I (J1 & J2 & J3) Po E. destruct e as [ns|m|o b|o ret|o|o rc|o|t|t v]; cbn [step polite] in E, Po.
  - unfold construct in E. injection E as <- <-. split; [|split; [exact J2|]].
    + intros o p E. apply app_nth in E as [(_ & E)|(_ & ->)]; eauto.
    + intros o t R. cbn in R. apply alive_cons; [eauto|discriminate].
  - injection E as <- <-. split; [exact J1|]. split; [exact J2|]. intros o t R. cbn in R. apply alive_cons; [eauto|discriminate].
  - apply on_next in E as (p & Ep & D & E). injection E as <- <-. split; [|split; [exact J2|]].
    + intros o' p' E. apply upd_nth in E as [(_ & ->)|(_ & E)]; [cbn; tauto|eauto].
    + intros o' t R. cbn in R. apply alive_cons; [eauto|discriminate].
  - apply start_cases in E as (p & Ep & D & [(_ & -> & E1 & E2 & _)|(Lv & _ & m & _ & -> & ->)]).
    + split; [now rewrite E1|]. split; [now rewrite E2|]. intros o' t R. cbn in R. apply alive_cons; [eauto|discriminate].
    + split; [|split].
      * intros o' p' E. cbn in E. apply upd_nth in E as [(_ & ->)|(_ & E)]; cbn; eauto.
      * intros t th E. cbn in E. apply app_nth in E as [(_ & E)|(_ & ->)]; cbn; eauto.
      * intros o' t R. cbn in R. apply alive_cons; [|discriminate]. destruct (Nat.eqb_spec o o') as [<-|N]; [exact Po|eauto].
  - apply join_cases in E as (p & Ep & D & [(_ & -> & ->)|(Lv & t & th & v & T & Et & Dt & Pr & -> & ->)]).
    + split; [exact J1|]. split; [exact J2|]. intros o' t R. cbn in R. apply alive_cons; [eauto|discriminate].
    + split; [|split].
      * intros o' p' E. cbn in E. apply upd_nth in E as [(_ & ->)|(_ & E)]; cbn; eauto.
      * intros t' th' E. cbn in E. apply upd_nth in E as [(_ & ->)|(_ & E)]; cbn; eauto.
      * intros o' t' R. cbn in R. destruct (Nat.eqb_spec o o') as [<-|N]; [discriminate R|]. apply alive_cons; [eauto|discriminate].
  - apply kill_cases in E as (p & t & th & _ & _ & _ & _ & _ & -> & Ex). split; [exact J1|]. split; [exact J2|]. intros o' t' R. destruct Ex as [->| ->]; cbn in R; (apply alive_cons; [eauto|discriminate]).
  - apply on_next in E as (p & Ep & D & E). injection E as <- <-. split; [|split; [exact J2|]].
    + intros o' p' E. apply upd_nth in E as [(_ & ->)|(_ & E)]; cbn; eauto.
    + intros o' t R. cbn in R. destruct (Nat.eq_dec o o') as [<-|N]; [destruct Po; congruence|]. apply alive_cons; [eauto|congruence].
  - unfold begin in E. destruct (nth_error (threads s) t) as [th|] eqn:Et; [|discriminate E]. destruct (t_progress th) eqn:Pr; try discriminate E. apply on_next in E as (p & Ep & D & E). injection E as <- <-.
    split; [exact J1|]. split; [|intros o' t' R; cbn in R; apply alive_cons; [eauto|discriminate]]. intros t' th' E. cbn in E. apply upd_nth in E as [(_ & ->)|(_ & E)]; cbn; eauto.
  - unfold finish in E. destruct (nth_error (threads s) t) as [th|] eqn:Et; [|discriminate E]. destruct (t_progress th) eqn:Pr; try discriminate E. apply on_next in E as (p & Ep & D & E). injection E as <- <-.
    split; [exact J1|]. split; [|intros o' t' R; cbn in R; apply alive_cons; [eauto|discriminate]]. intros t' th' E. cbn in E. apply upd_nth in E as [(_ & ->)|(_ & E)]; cbn; eauto.
Qed.
Lemma joinable_politely evs s h : politely evs s h -> inv s h /\ joinable s h.
Proof.
  induction 1 as [|evs s h e s' x P (I & J) Po E].
  - split; [apply inv_start|]. split; [intros o p E; destruct o; discriminate E|]. split; [intros t th E; destruct t; discriminate E|intros o t R; discriminate R].
  - split; [eauto using inv_step|eauto using joinable_step].
Qed.
