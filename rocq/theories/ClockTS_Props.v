(** C88: Clock::perThread gives each thread a clock of its own. *)
From Coq Require Import List Arith Bool Lia.
From Verif Require Import ClockTS_Model ClockTS_Spec ClockTS_Proofs.
Import ListNotations.

(** Running a schedule *)
Fixpoint play (l : list (tid * choice)) (s : state) (tr : list event) : option (state * list event) :=
  match l with
  | [] => Some (s, tr)
  | (t, c) :: l => match step t c s with Some (s', es) => play l s' (tr ++ es) | None => None end
  end.
Lemma play_runs l : forall s tr s' tr', runs s tr -> play l s tr = Some (s', tr') -> runs s' tr'.
Proof.
  induction l as [|[t c] l IH]; intros s tr s' tr' R P; cbn [play] in P; [injection P as <- <-; exact R|].
  destruct (step t c s) as [[s1 es]|] eqn:E; [|discriminate]. apply (IH s1 (tr ++ es)); [|exact P]. now apply (R_step s tr t c).
Qed.
Definition init_by (t : tid) : list (tid * choice) := (t, CallInit) :: repeat (t, Go 0) 6.
(** Two threads ask at the same time, another calls perThreadInit again, other code uses keys. *)
Definition sample : list (tid * choice) :=
  [(7, OtherCreate 5); (7, OtherSet 5 (Some 9))] ++ init_by 1 ++
  [(1, CallGet); (2, CallGet); (3, CallInit); (2, Go 0); (1, Go 0); (3, Go 0); (2, Go 0); (1, Go 0); (2, Go 0); (3, Go 0); (1, Go 0); (1, Go 0); (2, Go 0); (3, Go 0);
   (1, CallGet); (1, Go 0); (2, CallGet); (2, Go 0)].
Definition sample_trace : list event :=
  [EInit 1; ECalibrate 1; EInitDone 1; EGet 1; EGet 2; EInit 3; EReturn 1 (Clk 1); EReturn 2 (Clk 0); EInitDone 3; EGet 1; EReturn 1 (Clk 1); EGet 2; EReturn 2 (Clk 0)].
Lemma sample_runs : exists s, runs s sample_trace.
Proof.
  destruct (play sample init []) as [[s tr]|] eqn:E; [|vm_compute in E; discriminate].
  exists s. apply (play_runs sample init []); [constructor|]. rewrite E. f_equal. f_equal.
  transitivity (match play sample init [] with Some (_, x) => x | None => [] end); [now rewrite E|vm_compute; reflexivity].
Qed.
Lemma sample_first : initialised_first sample_trace /\ stores_work sample_trace.
Proof.
  split.
  - intros a b t E. exists 1. unfold sample_trace in E. do 3 (destruct a as [|? a]; [discriminate|]; injection E as <- E). right. right. now left.
  - intros t I. unfold sample_trace in I. repeat (destruct I as [I|I]; [discriminate|]). destruct I.
Qed.

(** If perThreadInit has returned somewhere before perThread is called anywhere, then under
    every schedule, with any number of threads and calls of both, and whatever keys other
    code creates, deletes and uses: what perThread returns is a clock; no two threads get the
    same one; a call never fails for want of initialisation; and the clock is calibrated at
    most once, and has been when any perThreadInit returns. *)
Theorem C88_own_clock s tr :
  runs s tr -> initialised_first tr ->
  (forall t p, In (EReturn t p) tr -> exists n, p = Clk n) /\
  (forall t u p, In (EReturn t p) tr -> In (EReturn u p) tr -> t = u) /\
  (forall t, ~ In (ENotReady t) tr) /\
  calibrations tr <= 1 /\ (forall t, In (EInitDone t) tr -> calibrations tr = 1).
Proof.
  intros R Fi. destruct (inv_runs s tr R Fi) as (own & I). destruct (inv_calibrations _ _ _ I) as (C1 & C2).
  split; [|split; [|split; [apply I|now split]]].
  - intros t p X. destruct (i_ret _ _ _ I t p X) as ((n & E & _) & _). now exists n.
  - intros t u p X Y. destruct (i_ret _ _ _ I t p X) as ((n & E & H) & _). destruct (i_ret _ _ _ I u p Y) as ((m & E' & H') & _).
    rewrite E in E'. injection E' as <-. congruence.
Qed.
Example C88_own_clock_example : exists s, runs s sample_trace /\ initialised_first sample_trace /\ stores_work sample_trace.
Proof. destruct sample_runs as (s & R). exists s. split; [exact R|apply sample_first]. Qed.
Print Assumptions C88_own_clock.

(** A thread gets the same clock at every call. Missing: the system has no memory to store
    the pointer (see C88_store_refuted). *)
Theorem C88_same_clock_partial s tr :
  runs s tr -> initialised_first tr -> stores_work tr ->
  forall t p q, In (EReturn t p) tr -> In (EReturn t q) tr -> p = q.
Proof.
  intros R Fi S t p q X Y. destruct (inv_runs s tr R Fi) as (own & I).
  destruct (i_ret _ _ _ I t p X) as (_ & _ & A). destruct (i_ret _ _ _ I t q Y) as (_ & _ & B). specialize (A S). specialize (B S). congruence.
Qed.
Example C88_same_clock_example : In (EReturn 1 (Clk 1)) sample_trace /\ In (EReturn 2 (Clk 0)) sample_trace.
Proof. split; unfold sample_trace; cbn; tauto. Qed.
Print Assumptions C88_same_clock_partial.

(** Calls do not block each other for ever: while the program lives, and some call is under
    way, that call or the one that holds the mutex can go on. *)
Theorem C88_no_deadlock s tr t :
  runs s tr -> initialised_first tr -> dead s = false -> pcs s t <> Idle ->
  exists u c s' es, step u c s = Some (s', es) /\ (u = t \/ locked s = Some u) /\ pcs s u <> Idle.
Proof. intros R Fi D N. destruct (inv_runs s tr R Fi) as (own & I). now apply (can_step own s tr). Qed.
Example C88_no_deadlock_example : exists s tr, runs s tr /\ initialised_first tr /\ dead s = false /\ pcs s 2 = ILock /\ locked s = Some 1.
Proof.
  destruct (play [(1, CallInit); (2, CallInit); (1, Go 0)] init []) as [[s tr]|] eqn:E; [|vm_compute in E; discriminate].
  exists s, tr. split; [apply (play_runs _ init [] _ _ R_init E)|]. vm_compute in E. injection E as <- <-. split; [|repeat split; reflexivity].
  intros a b t E. do 2 (destruct a as [|? a]; [discriminate|]; injection E as _ E). destruct a; discriminate.
Qed.
Print Assumptions C88_no_deadlock.

Lemma event_dec (a b : event) : {a = b} + {a <> b}.
Proof. decide equality; try apply Nat.eq_dec. decide equality; apply Nat.eq_dec. Defined.
(** A failed check ends the program: nothing happens after it. *)
Theorem C88_failure_ends s tr t :
  runs s tr -> In (ENotReady t) tr \/ In (EKeyFails t) tr ->
  (exists tr0, tr = tr0 ++ [ENotReady t] \/ tr = tr0 ++ [EKeyFails t]) /\ forall u c, step u c s = None.
Proof.
  intros R. cut ((In (ENotReady t) tr \/ In (EKeyFails t) tr ->
    (exists tr0, tr = tr0 ++ [ENotReady t] \/ tr = tr0 ++ [EKeyFails t]) /\ dead s = true)).
  { intros H I. destruct (H I) as (A & B). split; [exact A|]. intros u c. unfold step. now rewrite B. }
  induction R as [|s tr u c s' es R IH St]; [intros [[]|[]]|].
  assert (D : dead s = false) by (unfold step in St; destruct (dead s); [discriminate|reflexivity]).
  intros I. assert (J : In (ENotReady t) es \/ In (EKeyFails t) es).
  { rewrite !in_app_iff in I. destruct (in_dec event_dec (ENotReady t) tr) as [X|X]; [destruct (IH (or_introl X)); congruence|].
    destruct (in_dec event_dec (EKeyFails t) tr) as [Y|Y]; [destruct (IH (or_intror Y)); congruence|]. tauto. }
  clear I IH. unfold step in St. rewrite D in St.
  assert (Q : (es = [ENotReady t] \/ es = [EKeyFails t]) /\ dead s' = true).
  { destruct (pcs s u) as [| | | | | | | | | |p]; destruct c as [k| | | |k|k|k n]; try discriminate;
      repeat match type of St with context [match ?x with _ => _ end] => destruct x; try discriminate end;
      injection St as <- <-; cbn in J;
      repeat match goal with H : _ \/ _ |- _ => destruct H | H : False |- _ => destruct H end; try discriminate;
      match goal with H : _ = _ |- _ => injection H as -> end; split; auto. }
  destruct Q as (Q & Dd). split; [|exact Dd]. exists tr. destruct Q as [-> | ->]; auto.
Qed.
Example C88_failure_ends_example : exists s tr, runs s tr /\ In (ENotReady 4) tr.
Proof.
  destruct (play [(4, CallGet); (4, Go 0); (4, Go 0)] init []) as [[s tr]|] eqn:E; [|vm_compute in E; discriminate].
  exists s, tr. split; [apply (play_runs _ init [] _ _ R_init E)|]. vm_compute in E. injection E as <- <-. cbn. tauto.
Qed.
Print Assumptions C88_failure_ends.

(** If perThreadInit is not called at all, perThread never returns a clock: it aborts, or
    returns a pointer of other code, *)
Theorem C88_uninitialised s tr : runs s tr -> (forall t, ~ In (EInit t) tr) -> forall t p, In (EReturn t p) tr -> exists n, p = Foreign n.
Proof. intros R N t p X. exact (d_ret _ _ (dark_runs s tr R N) t p X). Qed.
(** and that happens: the check that perThreadInit was called comes too late. *)
Theorem C88_early_refuted :
  ~ (forall s tr, runs s tr -> forall t p, In (EReturn t p) tr -> exists n, p = Clk n).
Proof.
  intros H.
  destruct (play [(0, OtherCreate 0); (0, OtherSet 0 (Some 5)); (0, CallGet); (0, Go 0)] init []) as [[s tr]|] eqn:E; [|vm_compute in E; discriminate].
  pose proof (play_runs _ init [] _ _ R_init E) as R. vm_compute in E. injection E as <- <-.
  destruct (H _ _ R 0 (Foreign 5)) as (n & X); [right; now left|discriminate].
Qed.
Print Assumptions C88_uninitialised.
Print Assumptions C88_early_refuted.

(** The result of pthread_setspecific is not looked at: when it fails, the next call makes
    another clock. *)
Theorem C88_store_refuted :
  ~ (forall s tr, runs s tr -> initialised_first tr -> forall t p q, In (EReturn t p) tr -> In (EReturn t q) tr -> p = q).
Proof.
  intros H.
  destruct (play (init_by 1 ++ [(2, CallGet); (2, Go 0); (2, Go 0); (2, Go 0); (2, Fails); (2, CallGet); (2, Go 0); (2, Go 0); (2, Go 0); (2, Go 0)]) init [])
    as [[s tr]|] eqn:E; [|vm_compute in E; discriminate].
  pose proof (play_runs _ init [] _ _ R_init E) as R. vm_compute in E. injection E as <- <-.
  specialize (H _ _ R). discriminate (H ltac:(intros a b t E; exists 1; do 3 (destruct a as [|? a]; [discriminate|]; injection E as <- E); right; right; now left) 2 (Clk 0) (Clk 1)
    ltac:(cbn; tauto) ltac:(cbn; tauto)).
Qed.
Print Assumptions C88_store_refuted.
