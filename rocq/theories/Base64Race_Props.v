(** C90: decoding ASCIIbeticalB64 in several threads. *)
From Coq Require Import String List ZArith Bool Lia.
From Verif Require Import Common Base64_Spec Base64_Model Base64_Props Base64Race_Model Base64Race_Proofs.
Import ListNotations.
Local Open Scope string_scope.
Local Open Scope list_scope.
Local Open Scope Z_scope.

(** If the first decode of the program returns before another thread calls decode, then
    every decode in every thread and schedule gives what it gives on its own. *)
Theorem C90_first_use_alone_partial : forall t first rest,
  Forall (fun x => fst x = t) first -> snd (run first init) <> [] ->
  Forall (fun e => let 'EDecode _ data r := e in r = decode data) (snd (run (first ++ rest) init)).
Proof.
  intros t first rest T N. rewrite run_app. destruct (run first init) as [s1 e1] eqn:E1. destruct (run rest s1) as [s2 e2] eqn:E2. cbn [snd] in *.
  apply Forall_app. split; [exact (proj2 (alone_run _ _ _ _ _ (alone_init t) T E1))|].
  exact (proj2 (done_run _ _ _ _ (alone_done _ _ _ _ _ (alone_init t) T E1 N) E2)).
Qed.
Print Assumptions C90_first_use_alone_partial.

(** ... and so it does after any schedule of first uses, once a decode has returned and none
    is under way. *)
Theorem C90_after_quiet_partial : forall first rest,
  snd (run first init) <> [] -> (forall t, pcs (fst (run first init)) t = Idle) ->
  Forall (fun e => let 'EDecode _ data r := e in r = decode data) (snd (run rest (fst (run first init)))).
Proof.
  intros first rest N Q. destruct (run first init) as [s1 e1] eqn:E1. cbn [fst snd] in *. destruct (run rest s1) as [s2 e2] eqn:E2. cbn [snd].
  destruct (inv_run _ _ _ _ inv_init E1) as [I1 _].
  assert (M : Making s1) by (eapply making_run; [apply inv_init| |exact E1]; discriminate).
  assert (D : Done s1) by (apply quiet_done; auto; eapply set_run; [apply inv_init|exact E1|now right]).
  exact (proj2 (done_run _ _ _ _ D E2)).
Qed.
Print Assumptions C90_after_quiet_partial.

(** In particular what was encoded is decoded to what it was. *)
Theorem C90_round_trip_partial : forall t first rest u bytes s r,
  Forall (fun x => fst x = t) first -> snd (run first init) <> [] ->
  byte_string bytes -> Z.of_nat (List.length bytes) < 2 ^ 27 -> encode_data bytes 0 = Ok s ->
  In (EDecode u s r) (snd (run (first ++ rest) init)) -> r = Ok bytes.
Proof.
  intros t first rest u bytes s r T N B L E H. pose proof (C90_first_use_alone_partial t first rest T N) as F.
  rewrite Forall_forall in F. specialize (F _ H). cbn in F. destruct (C19_data_round_trip bytes B L) as (s' & v & E' & _ & _ & D).
  rewrite E in E'. injection E' as <-. now rewrite F.
Qed.
Print Assumptions C90_round_trip_partial.

(** In every schedule, a decode that reads no uninitialised entry gives the right result. *)
Theorem C90_right_or_undefined : forall sch,
  Forall (fun e => let 'EDecode _ data r := e in r = decode data \/ r = UB) (snd (run sch init)).
Proof. intros sch. destruct (run sch init) as [s ev] eqn:E. exact (proj2 (inv_run _ _ _ _ inv_init E)). Qed.
Print Assumptions C90_right_or_undefined.

(** The pointer is published before the table is filled in: while thread 0 fills it in,
    thread 1 decodes a string the encoder made with a table of uninitialised entries. *)
Theorem C90_published_early_refuted : exists sch data bytes,
  encode_data bytes 0 = Ok data /\ decode data = Ok bytes /\ In (EDecode 1%nat data UB) (snd (run sch init)).
Proof.
  exists (repeat (0%nat, codes "EJ6") 3 ++ repeat (1%nat, codes "EJ6") 4), (codes "EJ6"), [65; 82].
  split; [vm_compute; reflexivity|]. split; [vm_compute; reflexivity|]. vm_compute. auto.
Qed.
Print Assumptions C90_published_early_refuted.

(** Two threads that both find no table make two: the first writes the end of the alphabet
    into the table of the second, and decodes with that one before it has a beginning. *)
Theorem C90_two_tables_refuted : exists sch data bytes,
  encode_data bytes 0 = Ok data /\ decode data = Ok bytes /\ In (EDecode 0%nat data UB) (snd (run sch init)) /\ List.length (tables (fst (run sch init))) = 2%nat.
Proof.
  exists (repeat (0%nat, codes "EJ6") 2 ++ repeat (1%nat, codes "EJ6") 2 ++ repeat (0%nat, codes "EJ6") 41 ++ [(1%nat, codes "EJ6")] ++ repeat (0%nat, codes "EJ6") 27), (codes "EJ6"), [65; 82].
  split; [vm_compute; reflexivity|]. split; [vm_compute; reflexivity|]. vm_compute. auto.
Qed.
Print Assumptions C90_two_tables_refuted.

Example C90_example : let first := repeat (3%nat, codes "EJ6") 72 in
  Forall (fun x : tid * list Z => fst x = 3%nat) first /\ snd (run first init) = [EDecode 3%nat (codes "EJ6") (Ok [65; 82])] /\ encode_data [65; 82] 0 = Ok (codes "EJ6").
Proof.
  split; [apply Forall_forall; intros x H; apply repeat_spec in H; now subst x|]. split; vm_compute; reflexivity.
Qed.
Example C90_example_quiet : let first := repeat (0%nat, codes "EJ6") 2 ++ repeat (1%nat, codes "EJ6") 72 ++ repeat (0%nat, codes "EJ6") 70 in
  snd (run first init) = [EDecode 1%nat (codes "EJ6") (Ok [65; 82]); EDecode 0%nat (codes "EJ6") (Ok [65; 82])] /\ List.length (tables (fst (run first init))) = 2%nat /\
  forall t, pcs (fst (run first init)) t = Idle.
Proof. split; [vm_compute; reflexivity|]. split; [vm_compute; reflexivity|]. intros [|[|t]]; vm_compute; reflexivity. Qed.
