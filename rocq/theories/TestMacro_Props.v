(** C86: the TEST_INVARIANT macros, with which users test that code fails the way it should. *)
From Coq Require Import List String ZArith Bool.
From Verif Require Import AssertBoost_Model AssertBoost_Spec TestMacro_Model TestMacro_Spec TestMacro_Proofs.
Import ListNotations.
Local Open Scope string_scope.

Definition guard : site := {| s_expr := "n > 0"; s_file := "div.cpp"; s_line := 10; s_src := """no zero""" |}.
(** Prints, then fails an invariant. *)
Definition sample_code : prog := Print 7 (Invariant true guard (MText "no zero") (Invariant false guard (MText "no zero") (Print 8 Ret))).

(** A test goes on after the macro, with no hooks left, exactly when the code under test
    failed an invariant with one of the listed messages; for every code that registers no
    hooks, whatever it prints, throws and handles itself. Missing: the message lists that
    hold "no invariant happened" (see C86_vacuous_refuted). *)
Theorem C86_accept_partial file line code messages s s' :
  fresh s -> plain code -> ~ In "no invariant happened" messages ->
  (exec (fail 2) (TEST_INVARIANT_MSGVEC file line code messages Ret) s = Normal s' <->
   exists l msg, fails_with code l msg /\ In msg messages /\ s' = with_out s (map Out l)).
Proof.
  intros F P N. rewrite macro_run by assumption. unfold fails_with. apply found_false in N. split.
  - destruct (behaves code) as [l [e|]]; [|unfold handled; rewrite N; discriminate].
    destruct e as [c d|n|n]; try discriminate. unfold handled. destruct (found (c_msg c) messages) eqn:E; [|discriminate].
    intros H. injection H as <-. exists l, (c_msg c). split; [now exists c, d|]. split; [now apply found_spec|reflexivity].
  - intros (l & msg & (c & d & E & <-) & I & ->). rewrite E. unfold handled. apply found_spec in I. rewrite I. reflexivity.
Qed.
Example C86_accept_example :
  fresh start /\ plain sample_code /\ fails_with sample_code [7] "no zero" /\
  exec (fail 2) (TEST_INVARIANT_MSG2 "t.cpp" 3 sample_code "other" "no zero" Ret) start = Normal (with_out start [Out 7]).
Proof. repeat split; try reflexivity. exists (call_at guard "no zero"), false. split; reflexivity. Qed.
Print Assumptions C86_accept_partial.

(** The forms with one, two and three messages *)
Theorem C86_forms_partial file line code s s' m1 m2 m3 :
  fresh s -> plain code -> ~ In "no invariant happened" [m1; m2; m3] ->
  (exec (fail 2) (TEST_INVARIANT_MSG1 file line code m1 Ret) s = Normal s' <->
   exists l, fails_with code l m1 /\ s' = with_out s (map Out l)) /\
  (exec (fail 2) (TEST_INVARIANT_MSG2 file line code m1 m2 Ret) s = Normal s' <->
   exists l, (fails_with code l m1 \/ fails_with code l m2) /\ s' = with_out s (map Out l)) /\
  (exec (fail 2) (TEST_INVARIANT_MSG3 file line code m1 m2 m3 Ret) s = Normal s' <->
   exists l, (fails_with code l m1 \/ fails_with code l m2 \/ fails_with code l m3) /\ s' = with_out s (map Out l)).
Proof.
  intros F P N. cbn [In] in N. unfold TEST_INVARIANT_MSG1, TEST_INVARIANT_MSG2, TEST_INVARIANT_MSG3.
  rewrite !C86_accept_partial by (assumption || (cbn [In]; tauto)). cbn [In]. split; [|split]; split.
  - intros (l & msg & A & [<-|[]] & E). now exists l.
  - intros (l & A & E). exists l, m1. auto.
  - intros (l & msg & A & [<-|[<-|[]]] & E); exists l; auto.
  - intros (l & [A|A] & E); [exists l, m1|exists l, m2]; auto.
  - intros (l & msg & A & [<-|[<-|[<-|[]]]] & E); exists l; auto.
  - intros (l & [A|[A|A]] & E); [exists l, m1|exists l, m2|exists l, m3]; auto 6.
Qed.
Example C86_forms_example :
  exec (fail 2) (TEST_INVARIANT_MSG3 "t.cpp" 3 sample_code "a" "no zero" "b" Ret) start = Normal (with_out start [Out 7]).
Proof. reflexivity. Qed.
Print Assumptions C86_forms_partial.

(** What follows the macro runs as if the code under test had only printed. *)
Theorem C86_continue file line code messages k s l msg :
  fresh s -> plain code -> fails_with code l msg -> In msg messages ->
  exec (fail 2) (TEST_INVARIANT_MSGVEC file line code messages k) s = exec (fail 2) k (with_out s (map Out l)).
Proof.
  intros F P (c & d & E & <-) I. rewrite macro_run, E by assumption. unfold handled. apply found_spec in I. now rewrite I.
Qed.
Example C86_continue_example :
  exec (fail 2) (TEST_INVARIANT_MSG1 "t.cpp" 3 sample_code "no zero" (Print 9 Ret)) start = Normal (with_out start [Out 7; Out 9]).
Proof. reflexivity. Qed.
Print Assumptions C86_continue.

(** A failure with a message that is not listed ends the test program, and the report shows
    that message and where the macro stands. *)
Theorem C86_reject file line code messages k s l msg :
  fresh s -> plain code -> fails_with code l msg -> ~ In msg messages ->
  exec (fail 2) (TEST_INVARIANT_MSGVEC file line code messages k) s =
  Dead (with_out s (map Out l ++ [Report {| c_expr := "found"; c_file := file; c_line := line; c_msg := "unexpected error message '" ++ msg ++ "'" |}])).
Proof.
  intros F P (c & d & E & <-) I. rewrite macro_run, E by assumption. unfold handled. apply found_false in I. rewrite I. now rewrite with_out_app.
Qed.
Example C86_reject_example :
  exec (fail 2) (TEST_INVARIANT_MSG1 "t.cpp" 3 sample_code "No zero" Ret) start =
  Dead (with_out start [Out 7; Report {| c_expr := "found"; c_file := "t.cpp"; c_line := 3; c_msg := "unexpected error message 'no zero'" |}]).
Proof. reflexivity. Qed.
Print Assumptions C86_reject.

(** Code that runs to its end ends the test program too. *)
Theorem C86_no_failure_partial file line code messages k s l :
  fresh s -> plain code -> behaves code = (l, None) -> ~ In "no invariant happened" messages ->
  exec (fail 2) (TEST_INVARIANT_MSGVEC file line code messages k) s =
  Dead (with_out s (map Out l ++ [Report {| c_expr := "found"; c_file := file; c_line := line;
                                            c_msg := "unexpected error message 'no invariant happened'" |}])).
Proof.
  intros F P E I. rewrite macro_run, E by assumption. unfold handled. apply found_false in I. rewrite I. now rewrite with_out_app.
Qed.
Example C86_no_failure_example :
  let code := Try sample_code (fun _ => Print 1 Ret) (Print 2 Ret) in
  plain code /\ behaves code = ([7; 1; 2], None) /\ ~ In "no invariant happened" ["no zero"].
Proof. repeat split. intros [H|[]]. discriminate. Qed.
Print Assumptions C86_no_failure_partial.

(** An exception of another class passes through the macro, and leaves its hook registered:
    from then on every failed invariant is thrown, not reported. *)
Theorem C86_other_exception file line code messages k s l e :
  fresh s -> plain code -> behaves code = (l, Some e) -> (forall c d, e <> EAssert c d) ->
  exec (fail 2) (TEST_INVARIANT_MSGVEC file line code messages k) s =
  Throws e (with_out (set_fns [throwExceptionFn] [] s) (map Out l)).
Proof.
  intros F P E N. rewrite macro_run, E by assumption. destruct e as [c d|n|n]; [now destruct (N c d)|reflexivity|reflexivity].
Qed.
Example C86_other_exception_example :
  behaves (Print 7 (Throw (EStd 4))) = ([7], Some (EStd 4)) /\
  exec (fail 2) (Try (TEST_INVARIANT_MSG1 "t.cpp" 3 (Throw (EStd 4)) "m" Ret) (fun _ => Ret) (Invariant false guard (MText "later") Ret)) start =
  Throws (EAssert (call_at guard "later") false) (set_fns [throwExceptionFn] [] start).
Proof. split; reflexivity. Qed.
Print Assumptions C86_other_exception.

(** A test whose list holds the macro's own message passes although nothing failed. *)
Theorem C86_vacuous_refuted :
  ~ (forall file line code messages s s', fresh s -> plain code ->
       exec (fail 2) (TEST_INVARIANT_MSGVEC file line code messages Ret) s = Normal s' ->
       exists l msg, fails_with code l msg /\ In msg messages).
Proof.
  intros H. destruct (H "t.cpp" 3%Z (Print 7 Ret) ["no invariant happened"] start (with_out start [Out 7])) as (l & msg & (c & d & E & _) & _).
  - repeat split.
  - exact Logic.I.
  - reflexivity.
  - cbn in E. discriminate.
Qed.
Print Assumptions C86_vacuous_refuted.

(** Hooks the program had registered are gone after the macro, whatever they are: the
    documented assumption that there are none is needed. *)
Theorem C86_drops_hooks file line code messages s s' :
  idle s -> exec (fail 2) (TEST_INVARIANT_MSGVEC file line code messages Ret) s = Normal s' -> pre s' = [] /\ post s' = [].
Proof.
  intros (A & B & C). unfold TEST_INVARIANT_MSGVEC. cbn [exec]. rewrite B. rewrite exec_andThen.
  assert (H : forall e t, match exec (fail 2) match e with
             | EAssert c _ => ClearFns (Invariant (found (c_msg c) messages)
                          {| s_expr := "found"; s_file := file; s_line := line;
                             s_src := "boost::format(""unexpected error message '%s'"") % e.msg" |}
                          (MText ("unexpected error message '" ++ c_msg c ++ "'")) Ret)
             | e => Throw e end t with Normal s'' => Normal s'' | o => o end = Normal s' -> pre s' = [] /\ post s' = []).
  { intros [c d|n|n] t; cbn [exec]; try discriminate. destruct (in_pre t || in_post t); [discriminate|].
    destruct (found (c_msg c) messages); [intros X; injection X as <-; split; reflexivity|].
    destruct (invariant _ _ _ _) eqn:E; try discriminate. now destruct (invariant_not_normal _ _ _ _ _ E). }
  destruct (exec (fail 2) code _) as [s1|e s1|s1| |]; try discriminate; [|apply H].
  unfold fatalError. cbn [exec]. destruct (invariant _ _ _ s1) eqn:E; try discriminate; [now destruct (invariant_not_normal _ _ _ _ _ E)|apply H].
Qed.
Example C86_drops_hooks_example :
  idle (set_fns [says [1]] [says [2]] start) /\
  exec (fail 2) (TEST_INVARIANT_MSG1 "t.cpp" 3 sample_code "no zero" Ret) (set_fns [says [1]] [says [2]] start) =
  Normal (with_out start [Out 7; Out 1]).
Proof. repeat split; reflexivity. Qed.
Print Assumptions C86_drops_hooks.
