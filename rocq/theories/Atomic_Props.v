(** C47: the operations of lintel::Atomic are linearizable. *)
From Coq Require Import List ZArith Bool Lia Permutation.
From Verif Require Import Atomic_Spec Atomic_Model Atomic_Proofs.
Import ListNotations.
Local Open Scope Z_scope.

(** For every width, initial value, number of threads and schedule. *)
Theorem C47_linearizable : forall w v0 sched, 0 < w ->
  let s := run w (init v0) sched in
  exists l, linearizes w v0 (history s) l (counter s).
Proof.
  intros w v0 sched W s. destruct (run_inv w W v0 sched (init v0) [] (init_inv w v0)) as (l & G). exists l. exact (g_lin _ _ _ _ G).
Qed.
Print Assumptions C47_linearizable.

(** No update is lost: when all calls are increments, decrements, additions, subtractions and
    loads and all have returned, the counter has changed by the sum of their amounts. *)
Theorem C47_no_update_lost : forall w v0 sched, 0 < w ->
  let s := run w (init v0) sched in
  (forall op, In op (called_ops (history s)) -> amount op <> None) ->
  (forall t, threads s t = Idle) ->
  word w (counter s) = word w (v0 + sum_amounts (called_ops (history s))).
Proof.
  intros w v0 sched W s A ID. destruct (run_inv w W v0 sched (init v0) [] (init_inv w v0)) as (l & G). fold s in G.
  assert (C : CInv s) by (apply CInv_run, CInv_init). pose proof (all_linearized w v0 s l G C ID) as P.
  apply (Permutation_map snd) in P. rewrite map_map, calls_ops in P. cbn [snd] in P.
  rewrite (sequential_sum w W v0 l (counter s)); [|exact (lin_sequential _ _ _ _ _ (g_lin _ _ _ _ G))|].
  - f_equal. f_equal. apply sum_perm. exact P.
  - intros d Hd. apply A. apply (Permutation_in _ P). apply in_map_iff. eauto.
Qed.
Print Assumptions C47_no_update_lost.

(** The counter is always a word. *)
Theorem C47_counter_is_word : forall w v0 sched, 0 < w -> is_word w v0 ->
  let s := run w (init v0) sched in
  (forall op, In op (called_ops (history s)) -> op_ok w op) -> is_word w (counter s).
Proof.
  intros w v0 sched W V s OK. destruct (run_inv w W v0 sched (init v0) [] (init_inv w v0)) as (l & G). fold s in G.
  destruct (g_lin _ _ _ _ G) as [SEQ _ CALLED _ _].
  assert (O : forall d, In d l -> op_ok w (d_op d)).
  { intros d Hd. apply OK. rewrite <- calls_ops. apply in_map_iff. exists (d_id d, d_op d). split; [reflexivity|]. apply calls_in. auto. }
  revert SEQ. generalize (counter s) as c. clear - O V W. intros c SEQ. induction SEQ as [s|s id op l s' H IH]; [exact V|]. apply IH; [|intros d Hd; apply O; now right].
  apply seq_op_word; [exact W|exact V|]. exact (O _ (or_introl eq_refl)).
Qed.
Print Assumptions C47_counter_is_word.

(** In every state a thread inside an operation that runs alone is ready to return after two
    instructions: the loops of fetch_or/and/xor only repeat when another thread interferes. *)
Theorem C47_obstruction_free : forall w (s : state) t id p, threads s t = Busy id p ->
  exists r, threads (run w s [CStep t; CStep t]) t = Busy id (IRet r).
Proof. intros. eapply alone; eauto. Qed.
Print Assumptions C47_obstruction_free.

(** Three threads, a failing compare-and-swap and an interleaved fetch_or. *)
Example C47_example :
  let s := run 32 (init 1) [CCall 0 (FetchOr 6); CStep 0; CCall 1 PreInc; CStep 1; CReturn 1; CStep 0; CStep 0; CCall 2 (CompareExchange 1 9); CStep 2; CReturn 0; CReturn 2]%nat in
  counter s = 6 /\ history s = [Call 0 0 (FetchOr 6); Call 1 1 PreInc; Return 1 1 (RVal 2); Call 2 2 (CompareExchange 1 9); Return 0 0 (RVal 2); Return 2 2 (RCas false 6)].
Proof. vm_compute. split; reflexivity. Qed.
Example C47_example_sum :
  let s := run 8 (init 250) [CCall 0 (FetchAdd 7); CCall 1 PostDec; CStep 1; CStep 0; CReturn 0; CReturn 1; CCall 1 (SubFetch 2); CStep 1; CReturn 1]%nat in
  counter s = 254 /\ called_ops (history s) = [FetchAdd 7; PostDec; SubFetch 2] /\ word 8 (250 + sum_amounts (called_ops (history s))) = 254.
Proof. vm_compute. auto. Qed.
