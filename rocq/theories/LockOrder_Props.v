(** C49: lock ordering groups exclude deadlock. *)
From Coq Require Import List ZArith Bool Lia Relations ZifyBool ZifyNat.
From Verif Require Import Common LockOrder_Model LockOrder_Spec LockOrder_Proofs.
Import ListNotations.
Local Open Scope Z_scope.

(** Any number of threads and mutexes, any assignment of levels, any schedule. *)
Theorem C49_no_deadlock : forall level s, reachable level s -> ~ deadlock s.
Proof. intros level s R. apply (no_cycle level). now apply reachable_inv. Qed.
Print Assumptions C49_no_deadlock.

(** A blocked thread waits, directly or through others, for a thread that is not blocked. *)
Lemma filter_strict : forall (p q : nat -> bool) l a, (forall x, p x = true -> q x = true) -> In a l -> p a = false -> q a = true ->
  (length (filter p l) < length (filter q l))%nat.
Proof.
  intros p q l a PQ. assert (LE : forall k, (length (filter p k) <= length (filter q k))%nat).
  { induction k as [|x k IH]; cbn [filter]; [lia|]. destruct (p x) eqn:E; [rewrite (PQ x E); cbn [length]; lia|destruct (q x); cbn [length]; lia]. }
  induction l as [|x l IH]; intros I Pa Qa; [contradiction|]. cbn [filter]. specialize (LE l). destruct I as [->|I].
  - rewrite Pa, Qa. cbn [length]. lia.
  - specialize (IH I Pa Qa). destruct (p x) eqn:E; [rewrite (PQ x E); cbn [length]; lia|destruct (q x); cbn [length]; lia].
Qed.
Theorem C49_waits_for_a_running_thread : forall level s n t, reachable level s ->
  (forall u, (n <= u)%nat -> threads s u = mkThread None [] Running) ->
  blocked s t -> exists u, clos_trans nat (waits_for s) t u /\ ~ blocked s u.
Proof.
  intros level s n t R OUT. pose proof (reachable_inv level s R) as IN.
  set (wl := fun u => wait_level level (threads s u)).
  assert (H : forall m t, (length (filter (fun u => Z.ltb (wl t) (wl u)) (seq 0 n)) < m)%nat -> blocked s t -> exists u, clos_trans nat (waits_for s) t u /\ ~ blocked s u).
  { induction m as [|m IH]; intros x Lm (u & B); [lia|].
    assert (D : blocked s u \/ ~ blocked s u).
    { unfold blocked, waits_for. destruct (ph (threads s u)) as [|l b] eqn:E.
      - right. intros (v & l & b & F & _). discriminate.
      - destruct (holder s (l_mutex l)) as [v|] eqn:EH; [left; exists v, l, b; auto|]. right. intros (v & l' & b' & F & G). injection F as <- <-. congruence. }
    destruct D as [D|D]; [|exists u; split; [now constructor|exact D]].
    pose proof D as (v & V). pose proof (waits_higher level s x u v IN B V) as LT. fold (wl x) (wl u) in LT.
    assert (UN : (u < n)%nat).
    { destruct (Nat.lt_ge_cases u n) as [|G]; [assumption|]. destruct V as (l & b & F & _). rewrite (OUT u G) in F. discriminate. }
    destruct (IH u) as (z & C & Z); [|exact D|exists z; split; [apply t_trans with u; [now constructor|exact C]|exact Z]].
    eapply Nat.lt_le_trans; [apply (filter_strict _ (fun y => Z.ltb (wl x) (wl y)) (seq 0 n) u)|apply Nat.lt_succ_r; exact Lm].
    - intros y Hy. lia.
    - apply in_seq. lia.
    - lia.
    - lia. }
  intros B. apply (H _ t (Nat.lt_succ_diag_r _) B).
Qed.
Print Assumptions C49_waits_for_a_running_thread.

(** Taking a lock whose level is not above that of every lock the thread holds aborts. *)
Theorem C49_out_of_order_aborts : forall level s t m' m, reachable level s -> ph (threads s t) = Running ->
  holder s m' = Some t -> level m <= level m' -> step s (CLock t m (level m)) = Abort.
Proof.
  intros level s t m' m R P H LE. pose proof (reachable_inv level s R) as IN. apply (i_holder _ _ IN) in H as (q & Hq & Eq).
  pose proof (i_thread _ _ IN t) as [W C L K]. unfold held_of in Hq. unfold cur_ok in K. rewrite P in *. cbn [step]. rewrite P.
  destruct K as [K|[_ K]]; [|rewrite K in Hq; contradiction]. rewrite K. cbn [scopeDown].
  assert (Lq : l_level (snd q) = level m') by (rewrite <- Eq; apply L; now apply held_in).
  assert (T : level m' <= top (held (scopes (threads s t)))).
  { destruct (held (scopes (threads s t))) as [|[p o] k]; [contradiction|]. cbn [top]. destruct Hq as [<-|Hq]; [cbn in Lq; lia|].
    pose proof (chain_below k p o q C Hq). lia. }
  replace (top (held (scopes (threads s t))) <? level m) with false by lia. reflexivity.
Qed.
Print Assumptions C49_out_of_order_aborts.

(** Correct use never unlocks a mutex that is not held or uses an unprepared group; and ending
    a scope never fails an assertion. *)
Theorem C49_no_undefined_behaviour : forall level s c, reachable level s -> correct_use level s c ->
  step s c <> UB /\ step s c <> Fuel.
Proof.
  intros level s c R CU. pose proof (step_inv level s c (reachable_inv level s R) CU) as H. destruct (step s c); try contradiction; split; discriminate.
Qed.
Print Assumptions C49_no_undefined_behaviour.
Theorem C49_scope_exit_never_aborts : forall level s t, reachable level s -> step s (CEnd t) <> Abort /\ step s (CAcquire t) <> Abort.
Proof.
  intros level s t R. pose proof (reachable_inv level s R) as IN. pose proof (i_thread _ _ IN t) as [W C L K]. split.
  - cbn [step]. unfold cur_ok in K. destruct (ph (threads s t)) eqn:Ep; [|discriminate]. destruct (scopes (threads s t)) as [|[o|p o] r] eqn:ES; [discriminate| |].
    + unfold unlock. destruct (holder s (l_mutex o)) as [u|]; [|discriminate]. destruct (Nat.eqb u t); [|discriminate]. cbn [bind held top] in *.
      destruct K as [K|[K _]]; rewrite K; cbn [scopeUp]; [rewrite Z.eqb_refl; discriminate|discriminate].
    + cbn [wf held] in *. destruct W as (W & CR & k & Ek). rewrite Ek in *. cbn [tl] in *. destruct CR as (C1 & C2 & _). destruct K as [K|[K _]]; rewrite K; cbn [scopeDown]; [|discriminate].
      replace (top k <? l_level o) with true by lia. cbn [invariant bind]. replace (top k =? l_old o) with true by lia. discriminate.
  - cbn [step]. destruct (ph (threads s t)); [discriminate|]. destruct (holder s _); discriminate.
Qed.
Print Assumptions C49_scope_exit_never_aborts.

(** The last condition of [correct_use] is needed and the code does not check it: unlocking an
    outer lock object again, after re-locking its mutex inside, resets the level below that of
    a lock still held, and two threads deadlock without any assertion firing. *)
Fixpoint run (s : state) (l : list choice) : res state :=
  match l with [] => Ok s | c :: r => let! s' := step s c in run s' r end.
Theorem C49_double_unlock_deadlock_refuted : exists (level : nat -> Z) sched s,
  (forall t m lv, In (CLock t m lv) sched -> lv = level m) /\ run init sched = Ok s /\ deadlock s.
Proof.
  exists (fun m => match m with O => 5 | S O => 2 | _ => 1 end).
  exists [CPrepare 0; CPrepare 1; CLock 0 0 5; CAcquire 0; CUnlock 0 0; CLock 0 1 2; CAcquire 0; CLock 0 0 5; CAcquire 0; CUnlock 0 0;
          CLock 1 2 1; CAcquire 1; CLock 1 1 2; CAcquire 1; CLock 0 2 1; CAcquire 0].
  eexists. split; [|split; [vm_compute; reflexivity|]].
  - intros t m lv H. cbn [In] in H. repeat (destruct H as [H|H]; [try discriminate; injection H as <- <- <-; reflexivity|]). contradiction.
  - exists 0%nat. apply t_trans with 1%nat; constructor; eexists; eexists; split; reflexivity.
Qed.
Print Assumptions C49_double_unlock_deadlock_refuted.

(** Two threads nest two locks, one blocks on the other; a scoped unlock in between. *)
Fixpoint uses_ok (level : nat -> Z) (s : state) (l : list choice) : Prop :=
  match l with
  | [] => True
  | c :: r => correct_use level s c /\ match step s c with Ok s' => uses_ok level s' r | _ => True end
  end.
Lemma run_reachable : forall level l s s', reachable level s -> uses_ok level s l -> run s l = Ok s' -> reachable level s'.
Proof.
  induction l as [|c l IH]; intros s s' R U E; cbn [run uses_ok] in *; [now injection E as <-|]. destruct U as [U1 U2].
  destruct (step s c) as [s1| | |] eqn:ES; try discriminate. cbn [bind] in E. eapply IH; [|exact U2|exact E]. eapply reach_step; eauto.
Qed.
Example C49_example :
  let lv := (fun m => Z.of_nat m + 1) in
  exists s, run init [CPrepare 0; CPrepare 1; CLock 0 0 1; CAcquire 0; CLock 1 0 1; CLock 0 1 2; CAcquire 0; CUnlock 0 1] = Ok s /\
  reachable lv s /\ waits_for s 1 0 /\ holder s 0%nat = Some 0%nat /\ holder s 1%nat = None.
Proof.
  cbv zeta. eexists. split; [vm_compute; reflexivity|]. split; [|split; [do 2 eexists; split; reflexivity|split; reflexivity]].
  eapply (run_reachable _ [CPrepare 0; CPrepare 1; CLock 0 0 1; CAcquire 0; CLock 1 0 1; CLock 0 1 2; CAcquire 0; CUnlock 0 1]); [apply reach_init| |vm_compute; reflexivity].
  vm_compute. repeat split; try discriminate. intros (l & [F|[F|[]]]); discriminate.
Qed.
