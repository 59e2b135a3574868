(** Property C26 of StringId. *)
From Coq Require Import List Arith NArith Bool Lia.
From Verif Require Import Common HashTable_Model StringId_Spec StringId_Model StringId_Proofs.
Import ListNotations.

Section props.
Context {A : Type}.
Variable eq_dec : forall a b : A, {a = b} + {a <> b}.
Variable eqb : A -> A -> bool.
Variable shash : A -> N.
Variable empty : A.

(** Every history, shorter than twice the largest hash table, gives exactly the
    answers of the numbering by first appearance: ids 1, 2, 3, ... *)
Theorem C26_history : (forall a b, eqb a b = true <-> a = b) -> forall ops,
  (N.of_nat (length ops) <= 2 * 141650939)%N ->
  exists t, sid_new = Ok t /\ run_ops (sid_step eqb shash empty) t ops = run_ops (spec_step eq_dec) [] ops.
Proof.
  intros E ops L. destruct (new_rel (A := A) shash) as (t & Et & R). exists t. split; [exact Et|].
  apply (run_rel eq_dec eqb shash empty E); [exact R|exact L].
Qed.
(** So over a whole history, two getId calls give equal ids exactly when they are
    given equal strings, and getString gives back the string of that id. *)
Theorem C26_stable_bijection : (forall a b, eqb a b = true <-> a = b) -> forall ops t,
  (N.of_nat (length ops) <= 2 * 141650939)%N -> sid_new = Ok t ->
  let out := run_ops (sid_step eqb shash empty) t ops in
  (forall i j s s' n n', nth_error ops i = Some (GetId s) -> nth_error out i = Some (Ok (Id n)) ->
     nth_error ops j = Some (GetId s') -> nth_error out j = Some (Ok (Id n')) -> (s = s' <-> n = n'))
  /\ (forall i j s s' n, nth_error ops i = Some (GetId s) -> nth_error out i = Some (Ok (Id n)) ->
     nth_error ops j = Some (GetString n) -> nth_error out j = Some (Ok (Str s')) -> s' = s).
Proof.
  intros E ops t L Et. cbv zeta. destruct (C26_history E ops L) as (t' & Et' & Run). rewrite Et in Et'. injection Et' as <-. rewrite Run.
  destruct (spec_numbering eq_dec ops [] (NoDup_nil _)) as (final & _ & ND & H). split.
  - intros i j s s' n n' Oi Ai Oj Aj. destruct (H _ _ _ Oi Ai) as [P1 Q1]. destruct (H _ _ _ Oj Aj) as [P2 Q2]. split.
    + intros <-. assert (N.to_nat n - 1 = N.to_nat n' - 1) by (eapply nodup_nth; eauto). lia.
    + intros <-. congruence.
  - intros i j s s' n Oi Ai Oj Aj. destruct (H _ _ _ Oi Ai) as [P1 Q1]. destruct (H _ _ _ Oj Aj) as [P2 Q2]. congruence.
Qed.
End props.
(** A getString that follows the getId does answer. *)
Theorem C26_getString_total : forall (A : Type) (eq_dec : forall a b : A, {a = b} + {a <> b}) eqb (shash : A -> N) empty,
  (forall a b, eqb a b = true <-> a = b) -> forall before s after n t,
  (N.of_nat (length before + length after + 2) <= 2 * 141650939)%N -> sid_new = Ok t ->
  let ops := before ++ GetId s :: after in
  nth_error (run_ops (sid_step eqb shash empty) t ops) (length before) = Some (Ok (Id n)) ->
  length (run_ops (sid_step eqb shash empty) t ops) = length ops ->
  (forall r, In r (run_ops (sid_step eqb shash empty) t ops) -> r <> Abort) ->
  nth_error (run_ops (sid_step eqb shash empty) t (ops ++ [GetString n])) (length ops) = Some (Ok (Str s)).
Proof.
  intros A eq_dec eqb shash empty E before s after n t L Et. cbv zeta. set (ops := before ++ GetId s :: after).
  assert (Lo : length ops = length before + length after + 1) by (unfold ops; rewrite app_length; cbn; lia).
  destruct (C26_history eq_dec eqb shash empty E ops ltac:(lia)) as (t' & Et' & Run). rewrite Et in Et'. injection Et' as <-. rewrite Run.
  destruct (C26_history eq_dec eqb shash empty E (ops ++ [GetString n]) ltac:(rewrite app_length; cbn; lia)) as (t' & Et' & Run'). rewrite Et in Et'. injection Et' as <-. rewrite Run'.
  intros Hn Hl Ha. 
  (* the run of the specification, up to the last operation *)
  assert (G : forall ops known, NoDup known -> length (run_ops (spec_step eq_dec) known ops) = length ops -> (forall r, In r (run_ops (spec_step eq_dec) known ops) -> r <> Abort) ->
     exists final, NoDup final /\ (exists more, final = known ++ more) /\ (forall o, run_ops (spec_step eq_dec) known (ops ++ [o]) = run_ops (spec_step eq_dec) known ops ++ run_ops (spec_step eq_dec) final [o])
       /\ (forall i s n, nth_error ops i = Some (GetId s) -> nth_error (run_ops (spec_step eq_dec) known ops) i = Some (Ok (Id n)) -> (0 < n)%N /\ nth_error final (N.to_nat n - 1) = Some s)).
  { clear. induction ops as [|o ops IH]; intros known ND HL HA.
    - exists known. split; [exact ND|]. split; [exists []; now rewrite app_nil_r|]. split; [reflexivity|]. intros [|i]; discriminate.
    - cbn [run_ops app length] in *. destruct (spec_step eq_dec known o) as [[known' a]| | |] eqn:Es.
      + destruct (spec_numbering eq_dec [o] known ND) as (f0 & _ & _ & H0).
        assert (K : NoDup known' /\ (exists more, known' = known ++ more) /\ forall s n, o = GetId s -> a = Id n -> (0 < n)%N /\ nth_error known' (N.to_nat n - 1) = Some s).
        { clear H0. destruct o as [s|id|]; cbn in Es.
          - pose proof (position_spec eq_dec s known) as P. destruct (position eq_dec s known) as [j|]; injection Es as <- <-.
            + split; [exact ND|]. split; [exists []; now rewrite app_nil_r|]. intros s0 n Q1 Q2. injection Q1 as <-. injection Q2 as <-. split; [lia|]. rewrite Nat2N.id. now replace (j + 1 - 1) with j by lia.
            + split; [|split; [eauto|]].
              * apply (Permutation.Permutation_NoDup (Permutation.Permutation_cons_append known s)); now constructor.
              * intros s0 n Q1 Q2. injection Q1 as <-. injection Q2 as <-. split; [lia|]. rewrite Nat2N.id. replace (length known + 1 - 1) with (length known) by lia. rewrite nth_error_app2 by lia. now rewrite Nat.sub_diag.
          - destruct id as [|p]; [discriminate|]. destruct (nth_error known _); [|discriminate]. injection Es as <- <-.
            split; [exact ND|]. split; [exists []; now rewrite app_nil_r|]. discriminate.
          - injection Es as <- <-. split; [exact ND|]. split; [exists []; now rewrite app_nil_r|]. discriminate. }
        destruct K as (ND' & (m & Em) & K). destruct (IH known' ND') as (final & NDf & (more & Ef) & Hr & Hi).
        { cbn in HL. lia. } { intros r Hr. apply HA. now right. }
        exists final. split; [exact NDf|]. split; [exists (m ++ more); rewrite Ef, Em; now rewrite app_assoc|]. split.
        * intros o'. rewrite (Hr o'). reflexivity.
        * intros [|i] s n Q1 Q2; cbn [nth_error] in Q1, Q2; [|now apply (Hi i)]. injection Q1 as ->. injection Q2 as ->.
          destruct (K s n eq_refl eq_refl) as [K1 K2]. split; [exact K1|]. rewrite Ef. rewrite nth_error_app1; [exact K2|]. now apply CommonFacts.nth_error_lt in K2.
      + exfalso. apply (HA Abort); [now left|reflexivity].
      + exfalso. destruct o as [s|[|p]|]; cbn in Es; try discriminate; [destruct (position eq_dec s known)|destruct (nth_error known _)]; discriminate.
      + exfalso. destruct o as [s|[|p]|]; cbn in Es; try discriminate; [destruct (position eq_dec s known)|destruct (nth_error known _)]; discriminate. }
  destruct (G ops [] (NoDup_nil _) Hl Ha) as (final & _ & _ & Hr & Hi). rewrite Hr.
  rewrite nth_error_app2 by lia. rewrite Hl, Nat.sub_diag.
  destruct (Hi (length before) s n) as [P Q].
  { unfold ops. rewrite nth_error_app2 by lia. now rewrite Nat.sub_diag. } { exact Hn. }
  cbn [run_ops spec_step]. destruct n as [|p]; [lia|]. now rewrite Q.
Qed.

Example C26_nonvacuous :
  match sid_new with
  | Ok t => run_ops (sid_step Nat.eqb (fun n => N.of_nat (n mod 3)) 0) t
      [GetId 7; GetId 4; GetId 7; GetId 10; GetString 2; MaxId; GetString 3; GetId 4; GetString 4]
  | _ => []
  end = [Ok (Id 1%N); Ok (Id 2%N); Ok (Id 1%N); Ok (Id 3%N); Ok (Str 4); Ok (Id 4%N); Ok (Str 10); Ok (Id 2%N); Abort].
Proof. vm_compute. reflexivity. Qed.
Print Assumptions C26_history.
Print Assumptions C26_stable_bijection.
Print Assumptions C26_getString_total.
