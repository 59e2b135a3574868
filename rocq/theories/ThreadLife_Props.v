(** Property C80: the life of threads. *)
From Coq Require Import List Arith ZArith Bool Lia.
From Verif Require Import Common CommonFacts ThreadLife_Model ThreadLife_Spec ThreadLife_Proofs.
Import ListNotations.

(** Two objects, one of them a PThreadNoSignals, their threads interleaved, and a second start. *)
Definition demo : list event :=
  [ Join 0; Finish 2 9; Kill 0 0; Begin 2; Start 0 0; Join 1; Join 0; Finish 0 7; Finish 1 8; Begin 1; Start 1 0; Begin 0; Start 0 0; New true; New false; SetMask 5 ]%Z.
Definition demo_history : list seen :=
  [ SJoined 0 9; SReturned 2 9; SKilled 0 2 0; SBegan 2; SStarted 0 2 5; SJoined 1 8; SJoined 0 7; SReturned 0 7; SReturned 1 8; SBegan 1; SStarted 1 1 (2 ^ 64 - 1);
    SBegan 0; SStarted 0 0 5; SNew 1 true; SNew 0 false; SMask 5 ]%Z.

Ltac find := first [left; reflexivity | right; find].
Ltac absent := let K := fresh in intros K; repeat (destruct K as [K|K]; [discriminate K|]); exact K.
Ltac living := split; [eexists; cbn; find|cbn; absent].
Ltac polite_tac := cbn [polite]; first [exact I | living | split; [living|cbn; discriminate || reflexivity]].
Ltac follow := first [apply politely_nil | eapply politely_step; [follow | polite_tac | vm_compute; reflexivity]].
Example C80_demo : exists s, politely demo s demo_history.
Proof. unfold demo, demo_history. eexists. follow. Qed.
(** The same for schedules that need not be polite. *)
Ltac schedule := first [apply leads_nil | eapply leads_step; [schedule | vm_compute; reflexivity]].

(** A polite client meets no undefined behaviour under any schedule. *)
Theorem C80_safe_partial (evs : list event) (s : state) (h : list seen) (e : event) :
  politely evs s h -> polite h e -> step s e <> Undefined.
Proof.
  intros P Po. destruct (joinable_politely evs s h P) as (I & J1 & J2 & J3).
  assert (On : forall o f, alive o h -> (forall p, nth_error (objs s) o = Some p -> f p <> Undefined) -> on s o f <> Undefined).
  { intros o f A F. destruct (alive_obj s h o I A) as (p & Ep & D). unfold on. rewrite Ep, D. now apply F. }
  assert (Th : forall t th, nth_error (threads s) t = Some th -> match t_progress th with Ready | Running => alive (t_obj th) h | _ => True end).
  { intros t th Et. pose proof (i_thread _ _ I t th Et) as (_ & H). destruct (t_progress th); auto; destruct H as (H & _); eauto. }
  destruct e as [ns|m|o b|o ret|o|o rc|o|t|t v]; cbn [step polite] in *; try discriminate.
  - apply On; [tauto|]. discriminate.
  - apply On; [exact Po|]. intros p _. unfold start_nosig, start_plain. destruct (nosig p), (thread_live p), (ret =? 0)%Z; cbn; discriminate.
  - apply On; [exact Po|]. intros p Ep. destruct (thread_live p) eqn:Lv; cbn [negb]; [|discriminate].
    destruct (i_obj _ _ I o p Ep) as (_ & B & _). destruct (B Lv) as (B1 & ->). destruct (running o h) as [t|] eqn:R; [|contradiction].
    destruct (running_thread s h o t I R) as (th & Et & Eo). cbn. rewrite Et, (J2 t th Et). pose proof (i_thread _ _ I t th Et) as (_ & K).
    destruct (t_progress th) eqn:Pr; cbn; rewrite ?Pr; try discriminate. destruct K as (_ & _ & K). specialize (K (J2 t th Et)). rewrite Eo in K. contradiction.
  - destruct Po as (A & R). apply On; [exact A|]. intros p Ep. pose proof (proj2 (live_running s h o p I Ep) R) as Lv.
    destruct (i_obj _ _ I o p Ep) as (_ & B & _). destruct (B Lv) as (B1 & ->). destruct (running o h) as [t|] eqn:R'; [|contradiction].
    destruct (running_thread s h o t I R') as (th & Et & Eo). rewrite Et. pose proof (i_thread _ _ I t th Et) as (_ & K).
    destruct (t_progress th); try (destruct (rc =? EINVAL)%Z; discriminate). destruct K as (_ & _ & K). specialize (K (J2 t th Et)). rewrite Eo in K. contradiction.
  - apply On; [tauto|]. discriminate.
  - unfold begin. destruct (nth_error (threads s) t) as [th|] eqn:Et; [|discriminate]. specialize (Th t th Et). destruct (t_progress th); try discriminate. apply On; [exact Th|discriminate].
  - unfold finish. destruct (nth_error (threads s) t) as [th|] eqn:Et; [|discriminate]. specialize (Th t th Et). destruct (t_progress th); try discriminate. apply On; [exact Th|discriminate].
Qed.
Print Assumptions C80_safe_partial.

(** join() returns what run() returned in the thread that the last start() of the same object made. *)
Theorem C80_join (evs : list event) (s : state) (o : nat) (v : Z) (h : list seen) :
  leads evs s (SJoined o v :: h) -> exists t, running o h = Some t /\ returned t h = Some v /\ begins t h = 1.
Proof.
  intros L. inversion L as [|evs' s' h' e s'' x L' E]; subst. pose proof (inv_leads _ _ _ L') as I.
  destruct e as [ns|m|o' b|o' ret|o'|o' rc|o'|t|t v']; cbn [step] in E.
  - discriminate E. - discriminate E. - apply on_next in E as (p & _ & _ & E). discriminate E.
  - apply start_cases in E as (p & _ & _ & [(_ & E & _)|(_ & _ & m & _ & _ & E)]); discriminate E.
  - apply join_cases in E as (p & Ep & _ & [(_ & E & _)|(Lv & t & th & v' & T & Et & _ & Pr & _ & E)]); [discriminate E|]. injection E as <- <-.
    destruct (i_obj _ _ I o p Ep) as (_ & B & _). destruct (B Lv) as (_ & B2). exists t. rewrite <- B2. split; [exact T|].
    pose proof (i_thread _ _ I t th Et) as (_ & K). rewrite Pr in K. tauto.
  - apply kill_cases in E as (p & t & th & _ & _ & _ & _ & _ & _ & [E|E]); discriminate E.
  - apply on_next in E as (p & _ & _ & E). discriminate E.
  - apply (inv_begin s' h) in E as (E & _); [discriminate E|exact I].
  - apply (inv_finish s' h) in E as (E & _); [discriminate E|exact I].
Qed.
Print Assumptions C80_join.

Lemma leads_tail evs s h2 h1 : leads evs s (h2 ++ h1) -> exists evs' s', leads evs' s' h1.
Proof.
  revert evs s. induction h2 as [|x h2 IH]; cbn; intros evs s L; [eauto|]. inversion L; subst. eauto.
Qed.
(** An object is started only when it has no thread, and always in a new thread: no thread is lost
    unjoined by starting the object again. *)
Theorem C80_exclusive (evs : list event) (s : state) (h1 h2 : list seen) (o t : nat) (m : sigset) :
  leads evs s (h2 ++ SStarted o t m :: h1) -> running o h1 = None /\ (forall o' m', ~ In (SStarted o' t m') h1) /\ begins t h1 = 0.
Proof.
  intros L. apply leads_tail in L as (evs' & s0 & L). inversion L as [|evs'' s' h' e s'' x L' E]; subst. pose proof (inv_leads _ _ _ L') as I.
  destruct e as [ns|m'|o' b|o' ret|o'|o' rc|o'|t'|t' v']; cbn [step] in E.
  - discriminate E. - discriminate E. - apply on_next in E as (p & _ & _ & E). discriminate E.
  - apply start_cases in E as (p & Ep & _ & [(_ & E & _)|(Lv & _ & m' & _ & _ & E)]); [discriminate E|]. injection E as <- -> _.
    destruct (i_obj _ _ I o p Ep) as (_ & _ & C & _). split; [now apply C|]. split.
    + intros o' m'' H. destruct (i_started _ _ I o' _ m'' H) as (th & E & _). assert (N : nth_error (threads s') (length (threads s')) = None) by (apply nth_error_None; lia). congruence.
    + apply (i_fresh _ _ I). lia.
  - apply join_cases in E as (p & Ep & _ & [(_ & E & _)|(Lv & t' & th & v' & T & Et & _ & Pr & _ & E)]); discriminate E.
  - apply kill_cases in E as (p & t' & th & _ & _ & _ & _ & _ & _ & [E|E]); discriminate E.
  - apply on_next in E as (p & _ & _ & E). discriminate E.
  - apply (inv_begin s' h1) in E as (E & _); [discriminate E|exact I].
  - apply (inv_finish s' h1) in E as (E & _); [discriminate E|exact I].
Qed.
Print Assumptions C80_exclusive.

(** run() of one object is never active in two threads, and a thread enters it at most once, and only
    when it was started. *)
Theorem C80_once (evs : list event) (s : state) (h : list seen) : leads evs s h ->
  (forall o t1 t2, inside o t1 h -> inside o t2 h -> t1 = t2) /\
  (forall t, begins t h <= 1) /\ (forall t, begins t h <> 0 -> exists o m, In (SStarted o t m) h).
Proof.
  intros L. pose proof (inv_leads _ _ _ L) as I. split; [|split].
  - assert (K : forall o t, inside o t h -> running o h = Some t).
    { intros o t ((m & H) & B & R). destruct (i_started _ _ I o t m H) as (th & Et & <- & _). pose proof (i_thread _ _ I t th Et) as (_ & K). destruct (t_progress th); tauto. }
    intros o t1 t2 A B. apply K in A, B. congruence.
  - intros t. destruct (Nat.lt_ge_cases t (length (threads s))) as [Lt|Ge].
    + destruct (nth_error (threads s) t) as [th|] eqn:Et; [|apply nth_error_None in Et; lia]. pose proof (i_thread _ _ I t th Et) as (_ & K). destruct (t_progress th); lia.
    + destruct (i_fresh _ _ I t Ge). lia.
  - intros t B. destruct (nth_error (threads s) t) as [th|] eqn:Et; [|apply nth_error_None in Et; destruct (i_fresh _ _ I t Et); lia].
    pose proof (i_thread _ _ I t th Et) as (K & _). eauto.
Qed.
Print Assumptions C80_once.
Example C80_once_case : inside 0 2 (skipn 2 demo_history).
Proof. split; [exists 5%Z; cbn; find|]. split; [discriminate|reflexivity]. Qed.

(** start() of an object without a thread makes one; otherwise, and when the system has no more
    threads, it throws and leaves objects and threads alone. *)
Theorem C80_start (evs : list event) (s : state) (h : list seen) (o : nat) (ret : Z) : leads evs s h -> alive o h ->
  if match running o h with None => (ret =? 0)%Z | Some _ => false end
  then exists s' t m, step s (Start o ret) = Next s' (SStarted o t m) /\ mask s' = mask s
  else exists s', step s (Start o ret) = Next s' (SThrew o) /\ objs s' = objs s /\ threads s' = threads s.
Proof.
  intros L A. pose proof (inv_leads _ _ _ L) as I. destruct (alive_obj s h o I A) as (p & Ep & D). pose proof (live_running s h o p I Ep) as Lv.
  cbn [step]. unfold start, on. rewrite Ep, D. unfold start_nosig, start_plain.
  destruct (running o h) as [t|].
  - destruct (thread_live p); [|exfalso; assert (X : false = true) by (apply Lv; discriminate); discriminate X]. destruct (nosig p); eexists; split; try reflexivity; split; reflexivity.
  - destruct (thread_live p); [exfalso; now apply Lv|]. destruct (ret =? 0)%Z; cbn [negb]; destruct (nosig p); cbn;
      first [do 3 eexists; split; reflexivity | eexists; split; [reflexivity|split; reflexivity]].
Qed.
Print Assumptions C80_start.

(** join() without a thread throws and changes nothing. With one it waits until run() has returned, and
    no longer, and the thread it waits for can go on. *)
Theorem C80_join_waits (evs : list event) (s : state) (h : list seen) (o : nat) : politely evs s h -> alive o h ->
  match running o h with
  | None => step s (Join o) = Next s (SThrew o)
  | Some t => match returned t h with
      | Some v => exists s', step s (Join o) = Next s' (SJoined o v)
      | None => step s (Join o) = Waits /\
          if begins t h =? 0 then exists s', step s (Begin t) = Next s' (SBegan t)
          else forall v, exists s', step s (Finish t v) = Next s' (SReturned t v)
      end
  end.
Proof.
  intros P A. destruct (joinable_politely evs s h P) as (I & J1 & J2 & J3). destruct (alive_obj s h o I A) as (p & Ep & D). pose proof (live_running s h o p I Ep) as Lv.
  destruct (i_obj _ _ I o p Ep) as (_ & B & _). cbn [step]. unfold join, on. rewrite Ep, D.
  destruct (running o h) as [t|] eqn:R.
  - destruct (thread_live p); [|exfalso; assert (X : false = true) by (apply Lv; discriminate); discriminate X]. destruct (B eq_refl) as (_ & ->). cbn [negb].
    destruct (running_thread s h o t I R) as (th & Et & Eo). cbn. rewrite Et, (J2 t th Et). pose proof (i_thread _ _ I t th Et) as (_ & K). unfold begin, finish, on. rewrite Et, Eo, Ep, D.
    destruct (t_progress th) eqn:Pr; cbn; rewrite ?Pr.
    + destruct K as (_ & -> & ->). cbn. split; [reflexivity|]. eexists. reflexivity.
    + destruct K as (_ & -> & ->). cbn. split; [reflexivity|]. intros v. eexists. reflexivity.
    + destruct K as (_ & _ & -> & _). eexists. reflexivity.
    + exfalso. destruct K as (_ & _ & K). apply (K (J2 t th Et)). congruence.
  - destruct (thread_live p); [exfalso; now apply Lv|reflexivity].
Qed.
Print Assumptions C80_join_waits.

(** kill() signals the thread that the object is running. *)
Theorem C80_kill (evs : list event) (s : state) (h : list seen) (o t : nat) (rc : Z) :
  politely evs s (SKilled o t rc :: h) -> running o h = Some t.
Proof.
  intros L. inversion L as [|evs' s' h' e s'' x L' Po E]; subst. destruct (joinable_politely _ _ _ L') as (I & _).
  destruct e as [ns|m|o' b|o' ret|o'|o' rc'|o'|t'|t' v']; cbn [step] in E.
  - discriminate E. - discriminate E. - apply on_next in E as (p & _ & _ & E). discriminate E.
  - apply start_cases in E as (p & _ & _ & [(_ & E & _)|(_ & _ & m & _ & _ & E)]); discriminate E.
  - apply join_cases in E as (p & Ep & _ & [(_ & E & _)|(Lv & t' & th & v' & T & Et & _ & Pr & _ & E)]); discriminate E.
  - apply kill_cases in E as (p & t' & th & Ep & _ & T & _ & _ & _ & [E|E]); [discriminate E|]. injection E as <- <- <-. destruct Po as (_ & R).
    destruct (i_obj _ _ I o p Ep) as (_ & B & _). destruct (B (proj2 (live_running _ _ _ _ I Ep) R)) as (_ & <-). exact T.
  - apply on_next in E as (p & _ & _ & E). discriminate E.
  - apply (inv_begin s' h) in E as (E & _); [discriminate E|exact I].
  - apply (inv_finish s' h) in E as (E & _); [discriminate E|exact I].
Qed.
Print Assumptions C80_kill.

Lemma lor_filled m : (0 <= m < 2 ^ 64)%Z -> Z.lor m filled = filled.
Proof.
  intros H. apply Z.bits_inj'. intros n N. rewrite Z.lor_spec. change filled with (Z.ones 64).
  destruct (Z.lt_ge_cases n 64) as [L|L].
  - rewrite Z.ones_spec_low by lia. apply orb_true_r.
  - rewrite Z.ones_spec_high by lia. rewrite orb_false_r. destruct (Z.eq_dec m 0) as [->|M]; [apply Z.testbit_0_l|].
    apply Z.bits_above_log2; [lia|]. assert (Z.log2 m < 64)%Z by (apply Z.log2_lt_pow2; lia). lia.
Qed.
(** The signal mask, unless the start of a PThreadNoSignals failed, is the one the client set. A thread
    of a PThread inherits it, one of a PThreadNoSignals has all signals blocked. *)
Lemma mask_word evs s h : leads evs s h -> masks_ok h -> (0 <= mask s < 2 ^ 64)%Z.
Proof.
  induction 1 as [|evs s h e s' x L IH E]; intros M; [cbn; lia|].
  assert (M0 : masks_ok h) by (intros m Hm; apply M; now right). specialize (IH M0).
  destruct e as [ns|m|o b|o ret|o|o rc|o|t|t v]; cbn [step] in E.
  - unfold construct in E. injection E as <- <-. exact IH.
  - injection E as <- <-. apply M. now left.
  - apply on_next in E as (p & _ & _ & E). injection E as <- <-. exact IH.
  - apply start_cases in E as (p & _ & _ & [(_ & _ & _ & _ & E)|(_ & _ & m & _ & -> & _)]); [|exact IH]. rewrite E. destruct (nosig p); [rewrite lor_filled by exact IH; unfold filled; lia|exact IH].
  - apply join_cases in E as (p & _ & _ & [(_ & _ & ->)|(_ & t & th & v & _ & _ & _ & _ & -> & _)]); exact IH.
  - apply kill_cases in E as (p & t & th & _ & _ & _ & _ & _ & -> & _). exact IH.
  - apply on_next in E as (p & _ & _ & E). injection E as <- <-. exact IH.
  - unfold begin in E. destruct (nth_error _ _) as [th|]; [|discriminate E]. destruct (t_progress th); try discriminate E. apply on_next in E as (p & _ & _ & E). injection E as <- <-. exact IH.
  - unfold finish in E. destruct (nth_error _ _) as [th|]; [|discriminate E]. destruct (t_progress th); try discriminate E. apply on_next in E as (p & _ & _ & E). injection E as <- <-. exact IH.
Qed.
Lemma mask_client evs s h : leads evs s h -> (forall o, In (SNew o true) h -> ~ In (SThrew o) h) -> mask s = client_mask h.
Proof.
  induction 1 as [|evs s h e s' x L IH E]; intros M; [reflexivity|]. pose proof (inv_leads _ _ _ L) as I.
  assert (M0 : forall o, In (SNew o true) h -> ~ In (SThrew o) h) by (intros o A B; apply (M o); now right). specialize (IH M0).
  destruct e as [ns|m|o b|o ret|o|o rc|o|t|t v]; cbn [step] in E.
  - unfold construct in E. injection E as <- <-. exact IH.
  - injection E as <- <-. reflexivity.
  - apply on_next in E as (p & _ & _ & E). injection E as <- <-. exact IH.
  - apply start_cases in E as (p & Ep & _ & [(_ & -> & _ & _ & E)|(_ & _ & m & _ & -> & ->)]); [|exact IH]. destruct (nosig p) eqn:N; [|rewrite E; exact IH].
    exfalso. destruct (i_obj _ _ I o p Ep) as (A & _). rewrite N in A. apply (M o); [now right|now left].
  - apply join_cases in E as (p & _ & _ & [(_ & -> & ->)|(_ & t & th & v & _ & _ & _ & _ & -> & ->)]); exact IH.
  - apply kill_cases in E as (p & t & th & _ & _ & _ & _ & _ & -> & [->| ->]); exact IH.
  - apply on_next in E as (p & _ & _ & E). injection E as <- <-. exact IH.
  - unfold begin in E. destruct (nth_error _ _) as [th|]; [|discriminate E]. destruct (t_progress th); try discriminate E. apply on_next in E as (p & _ & _ & E). injection E as <- <-. exact IH.
  - unfold finish in E. destruct (nth_error _ _) as [th|]; [|discriminate E]. destruct (t_progress th); try discriminate E. apply on_next in E as (p & _ & _ & E). injection E as <- <-. exact IH.
Qed.
Theorem C80_mask_partial (evs : list event) (s : state) (h : list seen) : leads evs s h ->
  (forall o, In (SNew o true) h -> ~ In (SThrew o) h) -> mask s = client_mask h.
Proof. exact (mask_client evs s h). Qed.
Print Assumptions C80_mask_partial.
Lemma started_event s h evs o t m : leads evs s (SStarted o t m :: h) -> exists evs0 s0 p, leads evs0 s0 h /\ nth_error (objs s0) o = Some p /\
  m = (if nosig p then Z.lor (mask s0) filled else mask s0).
Proof.
  intros L. inversion L as [|evs'' s' h' e s'' x L' E]; subst. pose proof (inv_leads _ _ _ L') as I. exists evs'', s'.
  destruct e as [ns|m'|o' b|o' ret|o'|o' rc|o'|t'|t' v']; cbn [step] in E.
  - discriminate E. - discriminate E. - apply on_next in E as (p & _ & _ & E). discriminate E.
  - apply start_cases in E as (p & Ep & _ & [(_ & E & _)|(Lv & _ & m' & Em & _ & E)]); [discriminate E|]. injection E as -> _ ->. exists p. auto.
  - apply join_cases in E as (p & Ep & _ & [(_ & E & _)|(Lv & t' & th & v' & T & Et & _ & Pr & _ & E)]); discriminate E.
  - apply kill_cases in E as (p & t' & th & _ & _ & _ & _ & _ & _ & [E|E]); discriminate E.
  - apply on_next in E as (p & _ & _ & E). discriminate E.
  - apply (inv_begin s' h) in E as (E & _); [discriminate E|exact I].
  - apply (inv_finish s' h) in E as (E & _); [discriminate E|exact I].
Qed.
Theorem C80_nosignals (evs : list event) (s : state) (h1 h2 : list seen) (o t : nat) (m : sigset) :
  leads evs s (h2 ++ SStarted o t m :: h1) -> masks_ok h1 ->
  (In (SNew o true) h1 -> forall signal, (1 <= signal <= 64)%Z -> Z.testbit m (signal - 1) = true) /\
  (In (SNew o false) h1 -> (forall o', In (SNew o' true) h1 -> ~ In (SThrew o') h1) -> m = client_mask h1).
Proof.
  intros L M. apply leads_tail in L as (evs' & s0 & L). apply started_event in L as (evs0 & s1 & p & L & Ep & ->). pose proof (inv_leads _ _ _ L) as I. split.
  - intros N. destruct (i_new _ _ I o true N) as (p' & Ep' & Np). assert (p' = p) by congruence. subst p'. rewrite Np, (lor_filled _ (mask_word _ _ _ L M)).
    intros i Hi. change filled with (Z.ones 64). apply Z.ones_spec_low. lia.
  - intros N T. destruct (i_new _ _ I o false N) as (p' & Ep' & Np). assert (p' = p) by congruence. subst p'. rewrite Np. exact (mask_client _ _ _ L T).
Qed.
Print Assumptions C80_nosignals.
Example C80_mask_case : masks_ok demo_history /\ (forall o, In (SNew o true) demo_history -> ~ In (SThrew o) demo_history).
Proof.
  split; [|intros o _; cbn; absent]. intros m H. cbn in H. repeat (destruct H as [H|H]; [try discriminate H|]); try contradiction. injection H as <-. lia.
Qed.

(** Refuted: "start() can be called multiple times" (PThread.hpp.in:53). See [C80_start]: a second
    call before join() throws. With a PThreadNoSignals it also leaves every signal of the client blocked. *)
Theorem C80_mask_refuted : exists s, leads [Start 0 0; Start 0 0; New true; SetMask 5]%Z s [SThrew 0; SStarted 0 0 filled; SNew 0 true; SMask 5]%Z /\ mask s = filled.
Proof. eexists. split; [schedule|]. reflexivity. Qed.
Print Assumptions C80_mask_refuted.

(** Refuted: "an object can be used again when its thread is done". Once it was started detached it can
    never be started again, nor joined without undefined behaviour, whatever happens in between. *)
Lemma thread_stays s t th s' e x : nth_error (threads s) t = Some th -> step s e = Next s' x -> exists th', nth_error (threads s') t = Some th' /\ t_detached th' = t_detached th.
Proof.
  intros Et E. assert (U : forall t' th' pr, nth_error (threads s) t' = Some th' -> exists th0, nth_error (upd (threads s) t' (TH (t_obj th') (t_mask th') (t_detached th') pr)) t = Some th0 /\ t_detached th0 = t_detached th).
  { intros t' th' pr E'. destruct (upd_some (threads s) (TH (t_obj th') (t_mask th') (t_detached th') pr) th t' t Et) as (c & Ec & N1 & N2). exists c. split; [exact Ec|].
    destruct (Nat.eq_dec t t') as [->|N]; [rewrite (N2 eq_refl); cbn; congruence|now rewrite (N1 N)]. }
  destruct e as [ns|m|o b|o ret|o|o rc|o|t'|t' v]; cbn [step] in E.
  - unfold construct in E. injection E as <- <-. eauto.
  - injection E as <- <-. eauto.
  - apply on_next in E as (p & _ & _ & E). injection E as <- <-. eauto.
  - apply start_cases in E as (p & _ & _ & [(_ & _ & _ & -> & _)|(_ & _ & m & _ & -> & _)]); [eauto|]. exists th. split; [now apply app_nth1|reflexivity].
  - apply join_cases in E as (p & _ & _ & [(_ & _ & ->)|(_ & t' & th' & v & _ & E' & _ & _ & -> & _)]); [eauto|]. now apply U.
  - apply kill_cases in E as (p & t' & th' & _ & _ & _ & _ & _ & -> & _). eauto.
  - apply on_next in E as (p & _ & _ & E). injection E as <- <-. eauto.
  - unfold begin in E. destruct (nth_error (threads s) t') as [th'|] eqn:E'; [|discriminate E]. destruct (t_progress th'); try discriminate E. apply on_next in E as (p & _ & _ & E). injection E as <- <-. now apply U.
  - unfold finish in E. destruct (nth_error (threads s) t') as [th'|] eqn:E'; [|discriminate E]. destruct (t_progress th'); try discriminate E. apply on_next in E as (p & _ & _ & E). injection E as <- <-. now apply U.
Qed.
Lemma detach_kept evs s h : leads evs s h ->
  (forall o p, nth_error (objs s) o = Some p -> detached p = detach_setting o h) /\ (forall o, length (objs s) <= o -> detach_setting o h = false).
Proof.
  induction 1 as [|evs s h e s' x L (IH1 & IH2) E].
  - split; [intros o p E; destruct o; discriminate E|reflexivity].
  - destruct e as [ns|m|o b|o ret|o|o rc|o|t|t v]; cbn [step] in E.
    + unfold construct in E. injection E as <- <-. cbn. split.
      * intros o p E. apply app_nth in E as [(_ & E)|(-> & ->)]; [auto|]. cbn. symmetry. apply IH2. lia.
      * intros o Lo. rewrite app_length in Lo. apply IH2. lia.
    + injection E as <- <-. auto.
    + apply on_next in E as (p & Ep & _ & E). injection E as <- <-. cbn. rewrite length_upd. split.
      * intros o' p' E. apply upd_nth in E as [(-> & ->)|(N & E)]; [now rewrite Nat.eqb_refl|]. destruct (Nat.eqb_spec o o'); [congruence|auto].
      * intros o' Lo. destruct (Nat.eqb_spec o o') as [<-|N]; [apply nth_error_None in Lo; congruence|auto].
    + apply start_cases in E as (p & Ep & _ & [(_ & -> & -> & _ & _)|(_ & _ & m & _ & -> & ->)]); [auto|]. cbn. rewrite length_upd. split; [|exact IH2].
      intros o' p' E. apply upd_nth in E as [(-> & ->)|(N & E)]; cbn; auto.
    + apply join_cases in E as (p & Ep & _ & [(_ & -> & ->)|(_ & t & th & v & _ & _ & _ & _ & -> & ->)]); [auto|]. cbn. rewrite length_upd. split; [|exact IH2].
      intros o' p' E. apply upd_nth in E as [(-> & ->)|(N & E)]; cbn; auto.
    + apply kill_cases in E as (p & t & th & _ & _ & _ & _ & _ & -> & [->| ->]); auto.
    + apply on_next in E as (p & Ep & _ & E). injection E as <- <-. cbn. rewrite length_upd. split; [|exact IH2].
      intros o' p' E. apply upd_nth in E as [(-> & ->)|(N & E)]; cbn; auto.
    + unfold begin in E. destruct (nth_error (threads s) t) as [th|]; [|discriminate E]. destruct (t_progress th); try discriminate E. apply on_next in E as (p & _ & _ & E). injection E as <- <-. auto.
    + unfold finish in E. destruct (nth_error (threads s) t) as [th|]; [|discriminate E]. destruct (t_progress th); try discriminate E. apply on_next in E as (p & _ & _ & E). injection E as <- <-. auto.
Qed.
Lemma detached_stays evs s h1 h2 o t m : leads evs s (h2 ++ SStarted o t m :: h1) -> detach_setting o h1 = true ->
  running o (h2 ++ SStarted o t m :: h1) = Some t /\ exists th, nth_error (threads s) t = Some th /\ t_detached th = true.
Proof.
  revert evs s. induction h2 as [|x h2 IH]; cbn [app]; intros evs s L D.
  - split; [cbn; now rewrite Nat.eqb_refl|]. inversion L as [|evs' s0 h' e s'' x L' E]; subst. pose proof (detach_kept _ _ _ L') as (K & _). pose proof (inv_leads _ _ _ L') as I.
    destruct e as [ns|m'|o' b|o' ret|o'|o' rc|o'|t'|t' v']; cbn [step] in E.
    + discriminate E. + discriminate E. + apply on_next in E as (p & _ & _ & E). discriminate E.
    + apply start_cases in E as (p & Ep & _ & [(_ & E & _)|(Lv & _ & m' & Em & -> & E)]); [discriminate E|]. injection E as <- -> <-. cbn. eexists. split; [rewrite nth_error_app2, Nat.sub_diag by lia; reflexivity|].
      cbn. rewrite <- D. now apply K.
    + apply join_cases in E as (p & Ep & _ & [(_ & E & _)|(Lv & t' & th & v' & T & Et & _ & Pr & _ & E)]); discriminate E.
    + apply kill_cases in E as (p & t' & th & _ & _ & _ & _ & _ & _ & [E|E]); discriminate E.
    + apply on_next in E as (p & _ & _ & E). discriminate E.
    + apply (inv_begin s0 h1) in E as (E & _); [discriminate E|exact I].
    + apply (inv_finish s0 h1) in E as (E & _); [discriminate E|exact I].
  - pose proof L as L0. inversion L as [|evs' s0 h' e s'' x' L' E]; subst. destruct (IH _ _ L' D) as (R & th & Et & Dt). set (h := h2 ++ SStarted o t m :: h1) in *. pose proof (inv_leads _ _ _ L') as I.
    split; [|destruct (thread_stays _ _ _ _ _ _ Et E) as (th' & E1 & E2); exists th'; split; [exact E1|congruence]].
    destruct x; cbn [running]; auto.
    + destruct (Nat.eqb_spec o0 o) as [->|N]; [|exact R]. exfalso. destruct (C80_exclusive _ _ h [] o t0 m0 L0) as (X & _). congruence.
    + destruct (Nat.eqb_spec o0 o) as [->|N]; [|exact R]. exfalso.
      destruct e as [ns|m'|o' b|o' ret|o'|o' rc|o'|t'|t' v']; cbn [step] in E.
      * discriminate E. * discriminate E. * apply on_next in E as (p & _ & _ & E). discriminate E.
      * apply start_cases in E as (p & _ & _ & [(_ & E & _)|(_ & _ & m' & _ & _ & E)]); discriminate E.
      * apply join_cases in E as (p & Ep & _ & [(_ & E & _)|(Lv & t' & th' & v' & T & Et' & Dt' & Pr & _ & E)]); [discriminate E|]. injection E as <- _.
        destruct (i_obj _ _ I o p Ep) as (_ & B & _). destruct (B Lv) as (_ & B2). congruence.
      * apply kill_cases in E as (p & t' & th' & _ & _ & _ & _ & _ & _ & [E|E]); discriminate E.
      * apply on_next in E as (p & _ & _ & E). discriminate E.
      * apply (inv_begin s0 h) in E as (E & _); [discriminate E|exact I].
      * apply (inv_finish s0 h) in E as (E & _); [discriminate E|exact I].
Qed.
Theorem C80_detached_refuted (evs : list event) (s : state) (h1 h2 : list seen) (o t : nat) (m : sigset) (ret : Z) :
  leads evs s (h2 ++ SStarted o t m :: h1) -> detach_setting o h1 = true -> alive o (h2 ++ SStarted o t m :: h1) ->
  (exists s', step s (Start o ret) = Next s' (SThrew o)) /\ step s (Join o) = Undefined.
Proof.
  intros L D A. destruct (detached_stays evs s h1 h2 o t m L D) as (R & th & Et & Dt). pose proof (inv_leads _ _ _ L) as I. split.
  - pose proof (C80_start evs s _ o ret L A) as K. rewrite R in K. destruct K as (s' & K & _). eauto.
  - destruct (alive_obj s _ o I A) as (p & Ep & De). cbn [step]. unfold join, on. rewrite Ep, De. pose proof (proj2 (live_running _ _ _ _ I Ep) ltac:(congruence)) as Lv. rewrite Lv. cbn [negb].
    destruct (i_obj _ _ I o p Ep) as (_ & B & _). destruct (B Lv) as (_ & ->). rewrite R. cbn. now rewrite Et, Dt.
Qed.
Print Assumptions C80_detached_refuted.
Example C80_detached_case : exists s, leads [Finish 0 7; Begin 0; Start 0 0; SetDetached 0 true; New false]%Z s ([SReturned 0 7; SBegan 0] ++ SStarted 0 0 0 :: [SDetach 0 true; SNew 0 false])%Z.
Proof. eexists. cbn [app]. schedule. Qed.

(** Refuted: "kill() and the destructor are safe at any time". *)
Theorem C80_kill_refuted (sig : Z) :
  (exists s h, leads [New false] s h /\ step s (Kill 0 sig) = Undefined) /\
  (exists s h, leads [Join 0; Finish 0 7; Begin 0; Start 0 0; New false]%Z s h /\ step s (Kill 0 sig) = Undefined).
Proof. split; (eexists; eexists; split; [schedule|reflexivity]). Qed.
Print Assumptions C80_kill_refuted.
Theorem C80_destroy_refuted : exists s h, leads [Destroy 0; Start 0 0; New false]%Z s h /\ step s (Begin 0) = Undefined.
Proof. eexists. eexists. split; [schedule|reflexivity]. Qed.
Print Assumptions C80_destroy_refuted.
