(** Property C78: what a failed INVARIANT does, whatever hooks are registered. *)
From Coq Require Import List String ZArith Bool Lia.
From Verif Require Import AssertBoost_Model AssertBoost_Spec AssertBoost_Proofs.
Import ListNotations.
Local Open Scope string_scope.

Definition w1 : site := {| s_expr := "x > 0"; s_file := "a.cpp"; s_line := 10; s_src := "msg" |}.
Definition w2 : site := {| s_expr := "y"; s_file := "hook.cpp"; s_line := 20; s_src := "msg2" |}.

(** The code after a failed INVARIANT never runs, whatever the hooks do, in client code and
    in hooks, and whatever is registered. *)
Theorem C78_never_continues (d : nat) (w : site) (m : message) (k k' : prog) (s : st) :
  exec (fail d) (Invariant false w m k) s = exec (fail d) (Invariant false w m k') s /\
  forall s', exec (fail d) (Invariant false w m k) s <> Normal s'.
Proof.
  cbn [exec]. pose proof (invariant_not_normal d w m s) as N. destruct (invariant (fail d) w m s) as [s1|e s1|s1| |]; [exfalso; now apply (N s1)| | | |]; (split; [reflexivity|discriminate]).
Qed.
Print Assumptions C78_never_continues.

(** Assertions in hooks do not recurse: two nested calls are enough for every program and
    every set of hooks, and more make no difference. *)
Theorem C78_bounded (d : nat) (p : prog) (s : st) : idle s ->
  exec (fail 2) p s <> Deep /\ exec (fail (2 + d)) p s = exec (fail 2) p s.
Proof.
  intros (_ & Hi & Ho). destruct (exec_client 0 d p s Hi Ho) as (E & K). split; [|now symmetry]. intros C. rewrite C in K. exact K.
Qed.
Print Assumptions C78_bounded.
Example C78_idle_start : idle start.
Proof. repeat split. Qed.
(** A hook that fails an assertion of its own, and is registered for it too. *)
Example C78_bounded_case : run (AddBefore (fun _ => Invariant false w2 (MText "inner") Ret) (Invariant false w1 (MText "outer") Ret)) =
  Dead {| pre := [fun _ => Invariant false w2 (MText "inner") Ret]; post := []; recurse := true;
          out := [Recursing "hook.cpp" 20; Report (call_at w2 "inner")]; in_pre := true; in_post := false |}.
Proof. reflexivity. Qed.

(** An exception that leaves an assertion leaves it ready for the next one, and the
    internal check of the recursion flag never fails. *)
Theorem C78_ready (p : prog) (s : st) : idle s ->
  match exec (fail 2) p s with
  | Normal s' | Throws _ s' => idle s' /\ (In BadFlag (out s') -> In BadFlag (out s))
  | Dead s' => In BadFlag (out s') -> In BadFlag (out s)
  | Undef => True
  | Deep => False
  end.
Proof.
  intros (Hr & Hi & Ho). destruct (exec_client 0 0 p s Hi Ho) as (_ & K).
  assert (D : forall s', (nobad s -> nobad s') -> In BadFlag (out s') -> In BadFlag (out s)).
  { intros s' N I. destruct (bad_dec (out s)) as [J|J]; [exact J|]. exfalso. exact (N J I). }
  destruct (exec (fail 2) p s) as [s'|e s'|s'| |]; cbn [keeps] in K; try exact I; try exact K; try exact (D _ K).
  - destruct K as (K1 & K2 & K3 & K4). split; [repeat split; congruence|exact (D _ K4)].
  - destruct K as (K1 & K2 & K3 & K4). split; [repeat split; congruence|exact (D _ K4)].
Qed.
Print Assumptions C78_ready.
(** Two assertions that are turned into exceptions and caught, one after the other. *)
Example C78_ready_case :
  run (AddBefore throwExceptionFn (Try (Invariant false w1 (MText "a") (Print 7 Ret)) (fun _ => Print 1 Ret)
         (Try (Invariant false w2 (MText "b") (Print 8 Ret)) (fun _ => Print 2 Ret) (Print 3 Ret)))) =
  Normal {| pre := [throwExceptionFn]; post := []; recurse := false; out := [Out 1; Out 2; Out 3]; in_pre := false; in_post := false |}.
Proof. reflexivity. Qed.

(** Without hooks: exactly one report, with the expression, the place and the message, and
    the process is gone. *)
Theorem C78_default (w : site) (t : string) (k : prog) (s : st) : idle s -> pre s = [] -> post s = [] ->
  exec (fail 2) (Invariant false w (MText t) k) s = Dead (with_out s [Report (call_at w t)]).
Proof.
  intros (Hr & Hi & Ho) H1 H2. destruct s; cbn in *; subst. reflexivity.
Qed.
Print Assumptions C78_default.
(** Hooks that return: the ones registered to run before, in the order of registration,
    the report, the ones registered to run after, in order, and the end. *)
Theorem C78_order (w : site) (t : string) (k : prog) (before after : list (list nat)) (s : st) :
  idle s -> pre s = map says before -> post s = map says after ->
  exec (fail 2) (Invariant false w (MText t) k) s =
  Dead (with_out s (map Out (List.concat before) ++ [Report (call_at w t)] ++ map Out (List.concat after))%list).
Proof.
  intros (Hr & Hi & Ho) H1 H2. cbn [exec]. unfold invariant. cbn [text]. fold (call_at w t). rewrite fail_S, Hr. rewrite H1, <- (app_nil_r (map says before)), says_hooks by exact Hr. cbn [run_hooks leave].
  set (s1 := set_in_pre false _). assert (E1 : s1 = with_out s (map Out (List.concat before))) by (unfold s1; destruct s; cbn in *; subst; reflexivity). rewrite E1. cbn [with_out recurse]. rewrite Hr.
  cbn [with_out post]. rewrite H2, <- (app_nil_r (map says after)), says_hooks by exact Hr. cbn [run_hooks leave].
  f_equal. destruct s; cbn in *; subst. unfold with_out; cbn. f_equal. rewrite <- !app_assoc. reflexivity.
Qed.
Print Assumptions C78_order.
Example C78_order_case : run (AddBefore (says [1; 2]) (AddAfter (says [5]) (AddBefore (says [3]) (Invariant false w1 (MText "m") Ret)))) =
  Dead {| pre := map says [[1; 2]; [3]]; post := [says [5]]; recurse := false;
          out := [Out 1; Out 2; Out 3; Report (call_at w1 "m"); Out 5]; in_pre := false; in_post := false |}.
Proof. reflexivity. Qed.
(** A throwing hook: what was registered before it ran, nothing is reported, nothing after
    it runs; an AssertBoostException carries on, and it is the hook's own. *)
Theorem C78_exception (w : site) (t : string) (k : prog) (before : list (list nat)) (rest : list hook) (h : hook) (c : call) (dv : bool) (s : st) :
  idle s -> pre s = (map says before ++ h :: rest)%list -> h (call_at w t) = Throw (EAssert c dv) ->
  exec (fail 2) (Invariant false w (MText t) k) s = Throws (EAssert c false) (with_out s (map Out (List.concat before))).
Proof.
  intros (Hr & Hi & Ho) H1 Hh. cbn [exec]. unfold invariant. cbn [text]. fold (call_at w t). rewrite fail_S, Hr. rewrite H1, says_hooks by exact Hr. cbn [run_hooks]. unfold guarded. cbn [with_out set_in_pre recurse]. rewrite Hr. rewrite Hh. cbn [exec]. unfold cleanup. cbn [set_recurse recurse leave].
  f_equal. destruct s; cbn in *; subst. reflexivity.
Qed.
Print Assumptions C78_exception.
(** With AssertBoostThrowExceptionFn the exception tells expression, place and message. *)
Theorem C78_throw_fn (w : site) (t : string) (k : prog) (s : st) : idle s -> pre s = [throwExceptionFn] ->
  exec (fail 2) (Invariant false w (MText t) k) s = Throws (EAssert (call_at w t) false) s.
Proof.
  intros H H1. rewrite (C78_exception w t k [] [] throwExceptionFn (call_at w t) false s H H1 eq_refl). f_equal. destruct s; unfold with_out; cbn. now rewrite app_nil_r.
Qed.
Print Assumptions C78_throw_fn.
(** An assertion that fails inside a hook is reported and ends the process, without the
    report of the outer one. *)
Theorem C78_nested (w w' : site) (t t' : string) (k k' : prog) (before : list (list nat)) (rest : list hook) (h : hook) (s : st) :
  idle s -> pre s = (map says before ++ h :: rest)%list -> h (call_at w t) = Invariant false w' (MText t') k' ->
  exists s', exec (fail 2) (Invariant false w (MText t) k) s = Dead s' /\
    out s' = (out s ++ map Out (List.concat before) ++ [Recursing (s_file w') (s_line w'); Report (call_at w' t')])%list.
Proof.
  intros (Hr & Hi & Ho) H1 Hh. cbn [exec]. unfold invariant at 1. cbn [text]. fold (call_at w t). rewrite fail_S, Hr. rewrite H1, says_hooks by exact Hr. cbn [run_hooks]. unfold guarded. cbn [with_out set_in_pre recurse]. rewrite Hr. rewrite Hh. cbn [exec]. unfold invariant. cbn [text]. fold (call_at w' t'). rewrite fail_recursing by reflexivity. cbn [leave].
  eexists. split; [reflexivity|]. unfold recursing, emit. cbn. rewrite <- !app_assoc. reflexivity.
Qed.
Print Assumptions C78_nested.
(** A message that cannot be formatted or evaluated still gives a report, and the report
    says what went wrong. *)
Theorem C78_bad_message (w : site) (m : message) (k : prog) (s : st) : idle s -> pre s = [] -> post s = [] ->
  (forall e, m <> MThrow e) \/ (exists n, m = MThrow (EStd n)) ->
  exec (fail 2) (Invariant false w m k) s = Dead (with_out s [Report (call_at w (shown w m))]).
Proof.
  intros (Hr & Hi & Ho) H1 H2 M. destruct s; cbn in *; subst. destruct m as [t| | | |e]; try reflexivity. destruct M as [M|(n & M)]; [exfalso; now apply (M e)|]. injection M as ->. reflexivity.
Qed.
Print Assumptions C78_bad_message.
(** Refuted: "hooks run once". A hook that throws another std::exception is taken for a
    message that cannot be evaluated: all hooks before it and the hook itself run a second
    time with a message that hides the real one, and only then the exception leaves. *)
Theorem C78_std_exception_refuted (w : site) (t : string) (k : prog) (ns : list nat) (n : nat) (s : st) :
  idle s -> pre s = [fun c => prints ns (Throw (EStd n))] ->
  exec (fail 2) (Invariant false w (MText t) k) s = Throws (EStd n) (with_out s (map Out (ns ++ ns)%list)).
Proof.
  intros (Hr & Hi & Ho) H1. cbn [exec]. unfold invariant. cbn [text]. fold (call_at w t). fold (call_at w ("Exception evaluating " ++ s_src w)).
  assert (F : forall c s, idle s -> pre s = [fun c => prints ns (Throw (EStd n))] -> fail 2 s c = Throws (EStd n) (with_out s (map Out ns))).
  { clear. intros c s (Hr & Hi & Ho) H1. rewrite fail_S, Hr, H1. cbn [run_hooks]. unfold guarded. cbn [set_in_pre recurse]. rewrite Hr, exec_prints. cbn [exec]. unfold cleanup. cbn [with_out set_recurse recurse leave]. f_equal. destruct s; cbn in *; subst. reflexivity. }
  rewrite (F _ s); [|now repeat split|exact H1]. rewrite F; [|repeat split; assumption|exact H1]. rewrite with_out_app, map_app. reflexivity.
Qed.
Print Assumptions C78_std_exception_refuted.
Example C78_std_exception_case : run (AddBefore (fun _ => Print 4 (Throw (EStd 9))) (Try (Invariant false w1 (MText "m") Ret) (fun _ => Ret) (Print 5 Ret))) =
  Normal {| pre := [fun _ => Print 4 (Throw (EStd 9))]; post := []; recurse := false; out := [Out 4; Out 4; Out 5]; in_pre := false; in_post := false |}.
Proof. reflexivity. Qed.
(** Refuted: "the client catches what the hook threw". An object of a class derived from
    AssertBoostException arrives as a plain AssertBoostException. *)
Theorem C78_slicing_refuted : run (AddBefore (fun c => Throw (EAssert c true)) (Invariant false w1 (MText "m") Ret)) =
  Throws (EAssert (call_at w1 "m") false) {| pre := [fun c => Throw (EAssert c true)]; post := []; recurse := false; out := []; in_pre := false; in_post := false |}.
Proof. reflexivity. Qed.
Print Assumptions C78_slicing_refuted.
(** Refuted: "hooks may register hooks". *)
Theorem C78_register_refuted (h : hook) : run (AddBefore (fun _ => AddBefore h Ret) (Invariant false w1 (MText "m") Ret)) = Undef /\
  run (AddAfter (fun _ => ClearFns Ret) (Invariant false w1 (MText "m") Ret)) = Undef.
Proof. split; reflexivity. Qed.
Print Assumptions C78_register_refuted.
(** Registration: a failed assertion runs the hooks registered since the last
    AssertBoostClearFns, each kind in the order of registration, around the report. *)
Theorem C78_registered (rs : list reg) (w : site) (t : string) (k : prog) :
  exists s', run (register rs (Invariant false w (MText t) k)) = Dead s' /\
    out s' = (map Out (befores (since_clear rs)) ++ [Report (call_at w t)] ++ map Out (afters (since_clear rs)))%list.
Proof.
  assert (SC : forall l, existsb (fun r => match r with RClear => true | _ => false end) l = false -> since_clear l = l).
  { intros [|r l]; [reflexivity|]. cbn [existsb since_clear]. intros X. apply orb_false_elim in X as (X1 & X2). rewrite X2. destruct r; [reflexivity|reflexivity|discriminate]. }
  assert (H : forall rs a b, exists a' b',
    exec (fail 2) (register rs (Invariant false w (MText t) k)) (set_fns (map says a) (map says b) start) =
    exec (fail 2) (Invariant false w (MText t) k) (set_fns (map says a') (map says b') start) /\
    List.concat a' = ((if existsb (fun r => match r with RClear => true | _ => false end) rs then [] else List.concat a) ++ befores (since_clear rs))%list /\
    List.concat b' = ((if existsb (fun r => match r with RClear => true | _ => false end) rs then [] else List.concat b) ++ afters (since_clear rs))%list).
  { clear rs. induction rs as [|r rs IH]; intros a b.
    - exists a, b. cbn. rewrite !app_nil_r. auto.
    - destruct r as [ns|ns|]; cbn [register exec set_fns in_pre in_post start pre post orb].
      + destruct (IH (a ++ [ns])%list b) as (a' & b' & E & Ea & Eb). exists a', b'. rewrite map_app in E. split; [exact E|].
        cbn [existsb orb since_clear]. destruct (existsb _ rs) eqn:X; [auto|]. rewrite Ea, Eb, concat_app, (SC rs X). cbn. rewrite app_nil_r, <- !app_assoc. split; reflexivity.
      + destruct (IH a (b ++ [ns])%list) as (a' & b' & E & Ea & Eb). exists a', b'. rewrite map_app in E. split; [exact E|].
        cbn [existsb orb since_clear]. destruct (existsb _ rs) eqn:X; [auto|]. rewrite Ea, Eb, concat_app, (SC rs X). cbn. rewrite app_nil_r, <- !app_assoc. split; reflexivity.
      + destruct (IH [] []) as (a' & b' & E & Ea & Eb). exists a', b'. split; [exact E|]. cbn [existsb orb since_clear]. destruct (existsb _ rs) eqn:X; [auto|].
        rewrite Ea, Eb, (SC rs X). auto. }
  destruct (H rs [] []) as (a' & b' & E & Ea & Eb). unfold run. change start with (set_fns (map says []) (map says []) start). rewrite E.
  rewrite (C78_order w t k a' b') by (repeat split). eexists. split; [reflexivity|]. unfold with_out. cbn [out set_fns start app]. rewrite Ea, Eb.
  destruct (existsb _ rs); reflexivity.
Qed.
Print Assumptions C78_registered.
Example C78_registered_case : befores (since_clear [RBefore [9]; RClear; RAfter [3]; RBefore [1]; RBefore [2]]) = [1; 2] /\
  afters (since_clear [RBefore [9]; RClear; RAfter [3]; RBefore [1]; RBefore [2]]) = [3].
Proof. split; reflexivity. Qed.
