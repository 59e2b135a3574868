(** C110: scoped locks. *)
From Coq Require Import List Arith Lia Bool.
From Verif Require Import Common CommonFacts Scoped_Model Scoped_Spec.
Import ListNotations.

Definition unlocks (m : nat) (l : list item) : nat := length (filter (fun i => match i with Unlock m' => m' =? m | _ => false end) l).
Fixpoint covered (m k : nat) (l : list item) : Prop :=
  match l with
  | [] => True
  | Do c :: r | Catch c :: r => (guarded m k c \/ 0 < unlocks m r) /\ covered m k r
  | Unlock _ :: r => covered m k r
  end.
Lemma unlocks_cons m i l : unlocks m (i :: l) = (match i with Unlock m' => if m' =? m then 1 else 0 | _ => 0 end) + unlocks m l.
Proof. unfold unlocks. destruct i; cbn [filter]; [reflexivity| |reflexivity]. destruct (m0 =? m); reflexivity. Qed.
(** [t]'s locks to give back are those it holds *)
Definition inv (s : state) : Prop :=
  (forall t th m, nth_error (threads s) t = Some th -> unlocks m (stack th) = match holder s m with Some t' => if t' =? t then 1 else 0 | None => 0 end) /\
  (forall m t, holder s m = Some t -> t < length (threads s)) /\
  (forall m, holder s m = holds (rev (trace s)) m) /\ exclusive (rev (trace s)).
Definition cov (cs : list code) (s : state) : Prop :=
  (forall t c m k, nth_error cs t = Some c -> guarded m k c -> exists th, nth_error (threads s) t = Some th /\ covered m k (stack th)) /\
  length (threads s) = length cs /\
  (forall before t k after, rev (trace s) = before ++ Acted t k :: after -> t < length cs /\ forall c m, nth_error cs t = Some c -> guarded m k c -> holds before m = Some t).

Lemma nupd {A} (l : list A) i j a : nth_error (upd l i a) j = if i =? j then option_map (fun _ => a) (nth_error l j) else nth_error l j.
Proof. revert i j. induction l as [|x l IH]; intros [|i] [|j]; cbn; auto. now destruct (i =? j). Qed.
Lemma holds_snoc l e m : holds (l ++ [e]) m = match e with Locked t m' => if m' =? m then Some t else holds l m | Unlocked _ m' => if m' =? m then None else holds l m | Acted _ _ => holds l m end.
Proof. unfold holds. rewrite fold_left_app. reflexivity. Qed.
Lemma snoc_split {A} (l : list A) e b x a : l ++ [e] = b ++ x :: a -> (b = l /\ x = e /\ a = []) \/ exists a', a = a' ++ [e] /\ l = b ++ x :: a'.
Proof.
  destruct a as [|y a] using rev_ind; intros E.
  - apply app_inj_tail in E as (-> & ->). now left.
  - right. exists a. rewrite app_comm_cons, app_assoc in E. apply app_inj_tail in E as (-> & ->). now split.
Qed.
Lemma exclusive_snoc l e : exclusive l -> match e with Locked t m => holds l m = None | Unlocked t m => holds l m = Some t | Acted _ _ => True end -> exclusive (l ++ [e]).
Proof. intros X H b x a E. apply snoc_split in E as [(-> & -> & ->)|(a' & -> & ->)]; [exact H|]. now apply (X b x a'). Qed.

Lemma set_ok s t th r u : inv s -> nth_error (threads s) t = Some th -> (forall m, unlocks m r = unlocks m (stack th)) -> inv (mk_state (holder s) (upd (threads s) t (mk_thread r u)) (trace s)).
Proof.
  intros (A & B & C & D) E H. split; [|split; [|split; [exact C|exact D]]]; cbn [holder threads trace].
  - intros t' th' m E'. rewrite nupd in E'. destruct (Nat.eqb_spec t t') as [<-|N]; [|now apply A]. rewrite E in E'. injection E' as <-. cbn [stack]. rewrite H. now apply A.
  - intros m t' Hm. rewrite length_upd. now apply (B m).
Qed.
Lemma step_inv s t : inv s -> step s t <> UB /\ step s t <> Fuel /\ forall s', step s t = Ok s' -> inv s'.
Proof.
  intros HI. unfold step. destruct (nth_error (threads s) t) as [th|] eqn:Et; [|split; [discriminate|split; [discriminate|intros s' Q; now injection Q as <-]]]. destruct th as [st u]. cbn [stack unwinding].
  assert (SET : forall r u', (forall m, unlocks m r = unlocks m st) -> forall x, x = Ok (mk_state (holder s) (upd (threads s) t (mk_thread r u')) (trace s)) -> x <> UB /\ x <> Fuel /\ forall s', x = Ok s' -> inv s').
  { intros r u' H x ->. split; [discriminate|]. split; [discriminate|]. intros s' Q. injection Q as <-. now apply (set_ok s t (mk_thread st u)). }
  assert (SAME : forall x, x = Ok s -> x <> UB /\ x <> Fuel /\ forall s', x = Ok s' -> inv s').
  { intros x ->. split; [discriminate|]. split; [discriminate|]. intros s' Q. now injection Q as <-. }
  destruct st as [|[c|m|h] r].
  - destruct u; [repeat split; discriminate|now apply SAME].
  - destruct u; [eapply SET; [|reflexivity]; intros m; now rewrite unlocks_cons|]. destruct c as [|k|a b|m body| |a h]; try (eapply SET; [|reflexivity]; intros m; now rewrite !unlocks_cons).
    + split; [discriminate|]. split; [discriminate|]. intros s' Q. injection Q as <-. destruct (set_ok s t _ r false HI Et) as (A & B & C & D); [intros m; cbn [stack]; now rewrite unlocks_cons|].
      split; [exact A|]. split; [exact B|]. cbn [holder threads trace] in *. cbn [rev]. split; [intros m; rewrite holds_snoc; apply C|]. now apply exclusive_snoc.
    + unfold lock. destruct (holder s m) as [t'|] eqn:Eh; [now apply SAME|]. split; [discriminate|]. split; [discriminate|]. intros s' Q. injection Q as <-. destruct HI as (A & B & C & D). split; [|split; [|split]]; cbn [holder threads trace].
      * intros t' th' m' E'. rewrite nupd in E'. unfold set_holder. destruct (Nat.eqb_spec t t') as [<-|N].
        -- rewrite Et in E'. injection E' as <-. cbn [stack]. rewrite !unlocks_cons. specialize (A t _ m' Et). cbn [stack] in A. rewrite unlocks_cons in A. rewrite Nat.add_0_l in *. rewrite A. destruct (Nat.eqb_spec m m') as [<-|N]; [rewrite Nat.eqb_refl, Nat.eqb_refl, Eh; reflexivity|]. destruct (Nat.eqb_spec m' m); [congruence|]. reflexivity.
        -- specialize (A t' th' m' E'). rewrite A. destruct (Nat.eqb_spec m' m) as [->|]; [|reflexivity]. rewrite Eh. destruct (Nat.eqb_spec t t'); [congruence|reflexivity].
      * intros m' t' Hm. rewrite length_upd. unfold set_holder in Hm. destruct (m' =? m); [injection Hm as <-; apply nth_error_Some; congruence|now apply (B m')].
      * intros m'. cbn [rev]. rewrite holds_snoc. unfold set_holder. rewrite (Nat.eqb_sym m m'). destruct (m' =? m); [reflexivity|apply C].
      * cbn [rev]. apply exclusive_snoc; [exact D|]. now rewrite <- C.
  - pose proof HI as (A & B & C & D). pose proof (A t _ m Et) as Am. cbn [stack] in Am. rewrite unlocks_cons, Nat.eqb_refl in Am. unfold unlock. destruct (holder s m) as [t'|] eqn:Eh; [|lia]. destruct (Nat.eqb_spec t' t) as [->|N]; [|lia].
    split; [discriminate|]. split; [discriminate|]. intros s' Q. injection Q as <-. split; [|split; [|split]]; cbn [holder threads trace].
    + intros t' th' m' E'. rewrite nupd in E'. unfold set_holder. destruct (Nat.eqb_spec t t') as [<-|N].
      * rewrite Et in E'. injection E' as <-. cbn [stack]. pose proof (A t _ m' Et) as Am'. cbn [stack] in Am'. rewrite unlocks_cons in Am'. destruct (Nat.eqb_spec m' m) as [->|N]; [lia|]. destruct (Nat.eqb_spec m m'); [congruence|]. exact Am'.
      * specialize (A t' th' m' E'). rewrite A. destruct (Nat.eqb_spec m' m) as [->|]; [|reflexivity]. rewrite Eh. destruct (Nat.eqb_spec t t'); [congruence|reflexivity].
    + intros m' t' Hm. rewrite length_upd. unfold set_holder in Hm. destruct (m' =? m); [discriminate|now apply (B m')].
    + intros m'. cbn [rev]. rewrite holds_snoc. unfold set_holder. rewrite (Nat.eqb_sym m m'). destruct (m' =? m); [reflexivity|apply C].
    + cbn [rev]. apply exclusive_snoc; [exact D|]. now rewrite <- C.
  - destruct u; (eapply SET; [|reflexivity]; intros m; now rewrite !unlocks_cons).
Qed.
Lemma run_inv : forall sch s, inv s -> run_from s sch <> UB /\ run_from s sch <> Fuel /\ forall s', run_from s sch = Ok s' -> inv s'.
Proof.
  induction sch as [|t sch IH]; intros s HI; cbn [run_from].
  - split; [discriminate|]. split; [discriminate|]. intros s' Q. now injection Q as <-.
  - destruct (step_inv s t HI) as (A & B & C). destruct (step s t) as [s1| | |]; cbn [bind]; try congruence; [now apply IH, C|]. repeat split; discriminate.
Qed.
Lemma inv0 cs : inv (start cs).
Proof.
  unfold start. split; [|split; [|split]]; cbn [holder threads trace rev]; try easy; try discriminate.
  - intros t th m E. rewrite nth_error_map in E. destruct (nth_error cs t); [|discriminate]. injection E as <-. reflexivity.
  - intros b e a E. now destruct b.
Qed.

(** In every run, whatever the threads do and however they are scheduled, no lock is given
    back by a thread that does not hold it, a mutex has one holder at a time, and a thread
    that is finished, by whichever way it left its scopes, holds none. *)
Theorem C110_exclusive : forall cs schedule,
  run cs schedule <> UB /\ run cs schedule <> Fuel /\
  forall s, run cs schedule = Ok s -> exclusive (rev (trace s)) /\ forall t m, finished s t = true -> holds (rev (trace s)) m <> Some t.
Proof.
  intros cs sch. destruct (run_inv sch _ (inv0 cs)) as (A & B & C). split; [exact A|]. split; [exact B|]. intros s E. destruct (C s E) as (I1 & I2 & I3 & I4). split; [exact I4|]. intros t m F H. rewrite <- I3 in H. pose proof (I2 m t H) as Lt. apply nth_error_Some in Lt. unfold finished in F. destruct (nth_error (threads s) t) as [th|] eqn:Et; [|easy]. specialize (I1 t th m Et). rewrite H, Nat.eqb_refl in I1. destruct (stack th); [discriminate|discriminate].
Qed.
Print Assumptions C110_exclusive.

Lemma covered_skip m k i l : covered m k (i :: l) -> covered m k l.
Proof. destruct i; cbn; tauto. Qed.
Lemma cov_set cs s t r u : cov cs s -> (forall th m k, nth_error (threads s) t = Some th -> covered m k (stack th) -> covered m k r) ->
  cov cs (mk_state (holder s) (upd (threads s) t (mk_thread r u)) (trace s)).
Proof.
  intros (A & L & T) H. split; [|split; [cbn; now rewrite length_upd|exact T]]. cbn [threads]. intros t' c m k E G. destruct (A t' c m k E G) as (th & Eth & Cth). rewrite nupd. destruct (Nat.eqb_spec t t') as [<-|N]; [|now exists th]. rewrite Eth. eexists. split; [reflexivity|]. cbn [stack]. now apply (H th).
Qed.
Lemma step_cov cs s t s' : inv s -> cov cs s -> step s t = Ok s' -> cov cs s'.
Proof.
  intros HI HC E. unfold step in E. destruct (nth_error (threads s) t) as [th|] eqn:Et; [|now injection E as <-]. destruct th as [st u]. cbn [stack unwinding] in E.
  assert (EV : forall e, (forall t k, e <> Acted t k) -> forall h ths, cov cs (mk_state h ths (trace s)) -> cov cs (mk_state h ths (e :: trace s))).
  { intros e Ne h ths (A & L & T). split; [exact A|]. split; [exact L|]. cbn [trace rev] in *. intros b t0 k a Q. apply snoc_split in Q as [(_ & Q & _)|(a' & _ & Q)]; [exfalso; now apply (Ne t0 k)|]. now apply (T b t0 k a'). }
  assert (SET : forall h r u', (forall m k, covered m k st -> covered m k r) -> cov cs (mk_state h (upd (threads s) t (mk_thread r u')) (trace s))).
  { intros h r u' H. destruct (cov_set cs s t r u' HC) as (A & L & T); [intros th m k Q; rewrite Et in Q; injection Q as <-; apply H|]. now split. }
  destruct st as [|[c|m|h] r].
  - destruct u; [discriminate|now injection E as <-].
  - destruct u; [injection E as <-; apply SET; intros m k; apply covered_skip|]. destruct c as [|k|a b|m body| |a h].
    + injection E as <-. apply SET. intros m k. apply covered_skip.
    + injection E as <-. destruct (SET (holder s) r false) as (A & L & T); [intros m j; apply covered_skip|]. split; [exact A|]. split; [exact L|]. cbn [trace rev] in *. intros b t0 j a Q. apply snoc_split in Q as [(-> & Q & _)|(a' & _ & Q)]; [|now apply (T b t0 j a')]. injection Q as -> ->.
      destruct HC as (A0 & L0 & _). split; [rewrite <- L0; apply nth_error_Some; congruence|]. intros c m Ec G. destruct (A0 t c m k Ec G) as (th & Eth & Cth). rewrite Et in Eth. injection Eth as <-. cbn [stack covered guarded] in Cth. destruct Cth as ([Q|Q] & _); [easy|].
      destruct HI as (I1 & _ & I3 & _). specialize (I1 t _ m Et). cbn [stack] in I1. rewrite unlocks_cons in I1. rewrite <- I3. destruct (holder s m) as [t'|]; [|lia]. destruct (Nat.eqb_spec t' t); [congruence|lia].
    + injection E as <-. apply SET. intros m k. cbn [covered guarded]. rewrite unlocks_cons. rewrite Nat.add_0_l. tauto.
    + unfold lock in E. destruct (holder s m) as [t'|]; injection E as <-; [exact HC|]. apply EV; [discriminate|]. apply SET. intros m' k. cbn [covered guarded]. rewrite unlocks_cons. intros (Q & R). split; [|exact R]. destruct Q as [[->|Q]|Q]; [right; rewrite Nat.eqb_refl; lia|now left|right; lia].
    + injection E as <-. apply SET. intros m k. apply covered_skip.
    + injection E as <-. apply SET. intros m k. cbn [covered guarded]. rewrite unlocks_cons, Nat.add_0_l. tauto.
  - unfold unlock in E. destruct (holder s m) as [t'|]; [|discriminate]. destruct (t' =? t); [|discriminate]. injection E as <-. apply EV; [discriminate|]. apply SET. intros m' k. apply covered_skip.
  - destruct u; injection E as <-; apply SET; intros m k; [cbn [covered]; tauto|apply covered_skip].
Qed.
(** What the code does inside of a scope is done by the holder of the lock: if an action
    occurs in the code of a thread only in scopes with a lock of [m], then whenever the
    thread does it, it holds [m]. *)
Theorem C110_guarded : forall cs schedule s before t k after c m, run cs schedule = Ok s ->
  rev (trace s) = before ++ Acted t k :: after -> nth_error cs t = Some c -> guarded m k c -> holds before m = Some t.
Proof.
  intros cs sch s before t k after c m E Q Ec G. assert (X : forall sch s0, inv s0 -> cov cs s0 -> forall s, run_from s0 sch = Ok s -> cov cs s).
  { clear. induction sch as [|t sch IH]; intros s0 HI HC s E; cbn [run_from] in E; [now injection E as <-|]. destruct (step s0 t) as [s1| | |] eqn:E1; cbn [bind] in E; try discriminate. apply (IH s1); [now apply (step_inv s0 t HI)|now apply (step_cov cs s0 t)|exact E]. }
  destruct (X sch _ (inv0 cs)) with (s := s) as (_ & _ & T); [|exact E|].
  - unfold start. split; [|split; [cbn; now rewrite map_length|]]; cbn [threads trace rev].
    + intros t' c' m' k' E' G'. exists (mk_thread [Do c'] false). rewrite nth_error_map, E'. split; [reflexivity|]. cbn. split; [now left|exact Logic.I].
    + intros b t' k' a Q'. now destruct b.
  - destruct (T _ _ _ _ Q) as (_ & U). now apply (U c).
Qed.
Print Assumptions C110_guarded.
Example C110_ex :
  let c0 := TryCatch (Scope 0 (Seq (Act 1) (Seq (Scope 1 (Act 2)) Throw))) (Act 3) in
  let c1 := Scope 0 (Act 4) in
  guarded 0 1 c0 /\ guarded 0 4 c1 /\ guarded 1 2 c0 /\
  exists s, run [c0; c1] [0;0;0;1;0;0;1;0;0;0;0;1;0;0;0;1;1;1;0;0;0] = Ok s /\
    rev (trace s) = [Locked 0 0; Acted 0 1; Locked 0 1; Acted 0 2; Unlocked 0 1; Unlocked 0 0; Acted 0 3; Locked 1 0; Acted 1 4; Unlocked 1 0] /\ finished s 0 = true /\ finished s 1 = true.
Proof. cbn [guarded]. repeat (split; [intuition lia|]). eexists. split; [vm_compute; reflexivity|]. repeat split. Qed.

(** A thread that locks in a scope the mutex that it holds waits for ever. *)
Theorem C110_self : forall m body schedule, exists s, run [Scope m (Scope m body)] schedule = Ok s /\ finished s 0 = false /\ forall k, ~ In (Acted 0 k) (trace s).
Proof.
  intros m body sch. unfold run.
  assert (B : forall sch, let s1 := mk_state (set_holder (fun _ => None) m (Some 0)) [mk_thread [Do (Scope m body); Unlock m] false] [Locked 0 m] in run_from s1 sch = Ok s1).
  { cbv zeta. induction sch0 as [|t sch0 IH]; [reflexivity|]. cbn [run_from]. unfold step. cbn [threads nth_error]. destruct t as [|t]; [|destruct t; cbn [nth_error bind]; exact IH]. cbn [nth_error stack unwinding]. unfold lock. cbn [holder]. assert (Q : set_holder (fun _ => None) m (Some 0) m = Some 0) by (unfold set_holder; now rewrite Nat.eqb_refl). rewrite Q. cbn [bind]. exact IH. }
  induction sch as [|t sch IH].
  - exists (start [Scope m (Scope m body)]). split; [reflexivity|]. split; [reflexivity|]. intros k [].
  - cbn [run_from]. destruct t as [|t].
    + unfold step at 1. cbn [start threads map nth_error stack unwinding]. match goal with |- exists z, (let! s := ?x in _) = _ /\ _ => assert (E : x = Ok (mk_state (set_holder (fun _ => None) m (Some 0)) [mk_thread [Do (Scope m body); Unlock m] false] [Locked 0 m])) by reflexivity; rewrite E end. cbn [bind]. rewrite B. eexists. split; [reflexivity|]. split; [reflexivity|]. intros k [Q|[]]. discriminate.
    + unfold step at 1. cbn [start threads map nth_error]. destruct t; cbn [nth_error bind]; exact IH.
Qed.
Print Assumptions C110_self.
