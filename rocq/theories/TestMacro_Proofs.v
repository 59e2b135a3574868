(** Lemmas about the TEST_INVARIANT macros. *)
From Coq Require Import List String ZArith Bool Lia.
From Verif Require Import AssertBoost_Model AssertBoost_Spec TestMacro_Model TestMacro_Spec.
Import ListNotations.
Local Open Scope string_scope.

Lemma with_out_nil s : with_out s [] = s.
Proof. destruct s. unfold with_out; cbn. now rewrite app_nil_r. Qed.
Lemma with_out_app s a b : with_out (with_out s a) b = with_out s (a ++ b)%list.
Proof. destruct s. unfold with_out; cbn. now rewrite <- app_assoc. Qed.
Lemma emit_with_out e s : emit e s = with_out s [e].
Proof. reflexivity. Qed.
Lemma found_spec msg l : found msg l = true <-> In msg l.
Proof.
  induction l as [|m t IH]; cbn [found]; [split; [discriminate|intros []]|].
  destruct (String.eqb_spec msg m) as [->|N]; [split; [now left|reflexivity]|].
  rewrite IH. split; [now right|]. intros [E|E]; [now subst|exact E].
Qed.
Lemma found_false msg l : found msg l = false <-> ~ In msg l.
Proof. rewrite <- found_spec. destruct (found msg l); split; congruence. Qed.

(** The state of the code under test: the throwing hook comes first. *)
Definition armed (s : st) : Prop := idle s /\ exists t, pre s = throwExceptionFn :: t.
Lemma armed_out s l : armed s -> armed (with_out s l).
Proof. intros (A & B). split; [exact A|exact B]. Qed.
Lemma fail_armed d s c : armed s -> fail (S d) s c = Throws (EAssert c false) s.
Proof.
  intros ((A & B & C) & t & P). destruct s as [pr po r o ip iq]. cbn in *. subst. reflexivity.
Qed.
Lemma invariant_armed d w m s : armed s -> invariant (fail (S d)) w m s = Throws (failure w m) s.
Proof.
  intros A. unfold invariant. destruct m as [x| | | |[c dv|n|n]]; rewrite ?fail_armed by exact A; reflexivity.
Qed.
Definition ended (s : st) (r : list nat * option exn) : outcome :=
  match r with
  | (l, None) => Normal (with_out s (map Out l))
  | (l, Some e) => Throws e (with_out s (map Out l))
  end.
Lemma exec_armed d : forall p s, armed s -> plain p -> exec (fail (S d)) p s = ended s (behaves p).
Proof.
  induction p as [|n k IH|e|b w m k IH|p IHp h IHh k IHk|h IHh k IH|h IHh k IH|k IH]; intros s A P; cbn [exec behaves]; cbn [plain] in P.
  - cbn [ended map]. now rewrite with_out_nil.
  - rewrite emit_with_out, IH; [|now apply armed_out|exact P]. destruct (behaves k) as [l [e|]]; cbn [ended map]; rewrite with_out_app; reflexivity.
  - cbn [ended map]. now rewrite with_out_nil.
  - destruct b; [now apply IH|]. rewrite invariant_armed by exact A. cbn [ended map]. now rewrite with_out_nil.
  - destruct P as (P1 & P2 & P3). rewrite IHp by assumption. destruct (behaves p) as [l [e|]]; cbn [ended].
    + rewrite IHh; [|now apply armed_out|apply P2]. destruct (behaves (h e)) as [l' [e'|]]; cbn [ended].
      * rewrite with_out_app, map_app. reflexivity.
      * rewrite IHk; [|now apply armed_out, armed_out|exact P3].
        destruct (behaves k) as [l2 [e2|]]; cbn [ended]; rewrite !with_out_app, !map_app; reflexivity.
    + rewrite IHk; [|now apply armed_out|exact P3].
      destruct (behaves k) as [l2 [e2|]]; cbn [ended]; rewrite !with_out_app, !map_app; reflexivity.
  - now destruct P.
  - now destruct P.
  - now destruct P.
Qed.
Lemma exec_andThen F q : forall p s, exec F (andThen p q) s =
  match exec F p s with Normal s' => exec F q s' | o => o end.
Proof.
  induction p as [|n k IH|e|b w m k IH|p IHp h IHh k IHk|h IHh k IH|h IHh k IH|k IH]; intros s; cbn [exec andThen]; try reflexivity.
  - apply IH.
  - destruct b; [apply IH|]. destruct (invariant F w m s); try reflexivity. apply IH.
  - destruct (exec F p s) as [s'|e s'|s'| |]; try reflexivity; [apply IHk|].
    destruct (exec F (h e) s'); try reflexivity. apply IHk.
  - destruct (in_pre s); [reflexivity|apply IH].
  - destruct (in_post s); [reflexivity|apply IH].
  - destruct (in_pre s || in_post s); [reflexivity|apply IH].
Qed.
Lemma fail_fresh d s c : fresh s -> fail (S d) s c = Dead (with_out s [Report c]).
Proof.
  intros ((A & B & C) & P & Q). destruct s as [pr po r o ip iq]. cbn in *. subst. reflexivity.
Qed.
Definition hooked (s : st) : st := set_fns [throwExceptionFn] [] s.
Lemma hooked_armed s : fresh s -> armed (hooked s).
Proof. intros ((A & B & C) & P & Q). split; [repeat split; assumption|]. now exists []. Qed.
Lemma unhook s l : fresh s -> set_fns [] [] (with_out (hooked s) l) = with_out s l.
Proof. intros ((A & B & C) & P & Q). destruct s as [pr po r o ip iq]. cbn in *. subst. reflexivity. Qed.
(** The handler *)
Definition handled (file : string) (line : Z) (messages : list string) (msg : string) (k : prog) (s : st) : outcome :=
  if found msg messages then exec (fail 2) k s
  else Dead (with_out s [Report {| c_expr := "found"; c_file := file; c_line := line; c_msg := "unexpected error message '" ++ msg ++ "'" |}]).
Lemma macro_run file line code messages k s : fresh s -> plain code ->
  exec (fail 2) (TEST_INVARIANT_MSGVEC file line code messages k) s =
  match behaves code with
  | (l, Some (EAssert c _)) => handled file line messages (c_msg c) k (with_out s (map Out l))
  | (l, Some e) => Throws e (with_out (hooked s) (map Out l))
  | (l, None) => handled file line messages "no invariant happened" k (with_out s (map Out l))
  end.
Proof.
  intros F P. unfold TEST_INVARIANT_MSGVEC. cbn [exec].
  pose proof F as ((A & B & C) & Q & R). rewrite B, Q, R. change (set_fns ([] ++ [throwExceptionFn]) [] s) with (hooked s).
  rewrite exec_andThen, exec_armed by (exact P || now apply hooked_armed).
  assert (H : forall l c, match exec (fail 2) (ClearFns (Invariant (found (c_msg c) messages)
                          {| s_expr := "found"; s_file := file; s_line := line;
                             s_src := "boost::format(""unexpected error message '%s'"") % e.msg" |}
                          (MText ("unexpected error message '" ++ c_msg c ++ "'")) Ret)) (with_out (hooked s) l) with
             | Normal s'' => exec (fail 2) k s'' | o => o end = handled file line messages (c_msg c) k (with_out s l)).
  { intros l c. cbn [exec]. change (in_pre (with_out (hooked s) l)) with (in_pre s). change (in_post (with_out (hooked s) l)) with (in_post s).
    rewrite B, C. cbn [orb]. rewrite unhook by exact F. unfold handled. destruct (found (c_msg c) messages); [reflexivity|].
    unfold invariant. cbv beta iota zeta delta [text s_expr s_file s_line].
    rewrite fail_fresh by exact F. reflexivity. }
  destruct (behaves code) as [l [e|]]; cbn [ended].
  - destruct e as [c d|n|n]; [apply H|reflexivity|reflexivity].
  - unfold fatalError. cbn [exec]. rewrite invariant_armed by now apply armed_out, hooked_armed.
    cbn [failure shown]. rewrite H. reflexivity.
Qed.

(** A failure does not come back. *)
Lemma fail_not_normal d s c s' : fail d s c <> Normal s'.
Proof.
  destruct d as [|d]; cbn [fail]; [discriminate|].
  match goal with |- match ?o with _ => _ end <> _ => destruct o as [t|e t|t| |] end; try discriminate.
  match goal with |- match ?o with _ => _ end <> _ => destruct o as [u|e u|u| |] end; discriminate.
Qed.
Lemma invariant_not_normal d w m s s' : invariant (fail d) w m s <> Normal s'.
Proof.
  unfold invariant. cbv zeta.
  destruct (match m with MThrow e => Throws e s | _ => _ end) as [t|[c0 dv|n|n] t|t| |] eqn:E; try discriminate; [|apply fail_not_normal].
  destruct m; try discriminate E; now destruct (fail_not_normal _ _ _ _ E).
Qed.
