(** Lemmas about assertion failures. *)
From Coq Require Import List String ZArith Bool Lia.
From Verif Require Import AssertBoost_Model AssertBoost_Spec.
Import ListNotations.

(** ** While a hook runs *)
Definition recursing (s : st) (c : call) : st := emit (Report c) (emit (Recursing (c_file c) (c_line c)) s).
Lemma fail_recursing d s c : recurse s = true -> fail (S d) s c = Dead (recursing s c).
Proof. intros H. cbn [fail]. rewrite H. cbn [emit recurse]. rewrite H. reflexivity. Qed.
Definition nobad (s : st) : Prop := ~ In BadFlag (out s).
Lemma bad_dec (l : list event) : In BadFlag l \/ ~ In BadFlag l.
Proof. induction l as [|e l [IH|IH]]; [right; now intros []|left; now right|]. destruct e; try (right; now intros [C|C]). left. now left. Qed.
Lemma nobad_emit e s : e <> BadFlag -> nobad s -> nobad (emit e s).
Proof. intros E N I. apply in_app_or in I. destruct I as [I|[I|[]]]; [auto|congruence]. Qed.
(** What a step keeps. *)
Definition kept (s s' : st) : Prop :=
  recurse s' = recurse s /\ in_pre s' = in_pre s /\ in_post s' = in_post s /\ (nobad s -> nobad s').
Definition keeps (s : st) (o : outcome) : Prop :=
  match o with Normal s' | Throws _ s' => kept s s' | Dead s' => nobad s -> nobad s' | Undef => True | Deep => False end.
Lemma kept_refl s : kept s s.
Proof. repeat split; auto. Qed.
Lemma kept_trans a b c : kept a b -> kept b c -> kept a c.
Proof. intros (A1 & A2 & A3 & A4) (B1 & B2 & B3 & B4). repeat split; try congruence. auto. Qed.
Lemma keeps_trans a b o : kept a b -> keeps b o -> keeps a o.
Proof. intros K. destruct o; cbn [keeps]; try (now apply kept_trans); auto. intros H. intros N. apply H. apply K. exact N. Qed.
Lemma kept_emit e s : e <> BadFlag -> kept s (emit e s).
Proof. intros H. repeat split. now apply nobad_emit. Qed.
Lemma kept_fns a b s : kept s (set_fns a b s).
Proof. repeat split. intros N. exact N. Qed.

(** If two versions of AssertBoostFail agree, and keep the state, on the states with the same flags, then so do
    programs. *)
Section Exec.
Variables F G : st -> call -> outcome.
Variable P : st -> Prop.
Hypothesis P_kept : forall s s', P s -> kept s s' -> P s'.
Hypothesis FG : forall s c, P s -> F s c = G s c /\ keeps s (F s c).
Lemma invariant_agree w m s : P s -> invariant F w m s = invariant G w m s /\ keeps s (invariant F w m s).
Proof.
  intros H. unfold invariant.
  assert (B : forall o, keeps s o -> match o with
        | Throws (EAssert c _) s' => Throws (EAssert c false) s'
        | Throws (EStd _) s' => F s' {| c_expr := s_expr w; c_file := s_file w; c_line := s_line w; c_msg := "Exception evaluating " ++ s_src w |}
        | o => o end = match o with
        | Throws (EAssert c _) s' => Throws (EAssert c false) s'
        | Throws (EStd _) s' => G s' {| c_expr := s_expr w; c_file := s_file w; c_line := s_line w; c_msg := "Exception evaluating " ++ s_src w |}
        | o => o end /\ keeps s match o with
        | Throws (EAssert c _) s' => Throws (EAssert c false) s'
        | Throws (EStd _) s' => F s' {| c_expr := s_expr w; c_file := s_file w; c_line := s_line w; c_msg := "Exception evaluating " ++ s_src w |}
        | o => o end).
  { intros o K. destruct o as [s'|[c dv|n|n] s'|s'| |]; cbn [keeps] in K |- *; try (split; [reflexivity|exact K]).
    destruct (FG s' {| c_expr := s_expr w; c_file := s_file w; c_line := s_line w; c_msg := "Exception evaluating " ++ s_src w |} (P_kept _ _ H K)) as (E & K2). split; [exact E|now apply keeps_trans with s']. }
  destruct m; try (match goal with |- (match F s ?c with _ => _ end = _) /\ _ => destruct (FG s c H) as (E & K); rewrite <- E; apply B; exact K end).
  apply (B (Throws e s)). apply kept_refl.
Qed.
Lemma exec_agree : forall p s, P s -> exec F p s = exec G p s /\ keeps s (exec F p s).
Proof.
  induction p as [|n k IH|e|b w m k IH|p IHp h IHh k IHk|h _ k IH|h _ k IH|k IH]; intros s H; cbn [exec].
  - split; [reflexivity|apply kept_refl].
  - assert (K : kept s (emit (Out n) s)) by now apply kept_emit. destruct (IH _ (P_kept _ _ H K)) as (E & K2). split; [exact E|]. now apply keeps_trans with (1 := K).
  - split; [reflexivity|apply kept_refl].
  - destruct b; [now apply IH|]. destruct (invariant_agree w m s H) as (E & K). rewrite <- E. destruct (invariant F w m s) as [s'|e s'|s'| |]; cbn [keeps] in K; try (split; [reflexivity|exact K]).
    destruct (IH s' (P_kept _ _ H K)) as (E2 & K2). split; [exact E2|now apply keeps_trans with s'].
  - destruct (IHp s H) as (E & K). rewrite <- E. destruct (exec F p s) as [s'|e s'|s'| |]; cbn [keeps] in K; try (split; [reflexivity|exact K]).
    + destruct (IHk s' (P_kept _ _ H K)) as (E2 & K2). split; [exact E2|now apply keeps_trans with s'].
    + pose proof (P_kept _ _ H K) as H'. destruct (IHh e s' H') as (E2 & K2). rewrite <- E2. pose proof (keeps_trans _ _ _ K K2) as K3. destruct (exec F (h e) s') as [s''|e2 s''|s''| |]; cbn [keeps] in K3; try (split; [reflexivity|exact K3]).
      destruct (IHk s'' (P_kept _ _ H K3)) as (E4 & K4). split; [exact E4|now apply keeps_trans with s''].
  - destruct (in_pre s); [split; [reflexivity|exact I]|]. pose proof (kept_fns (pre s ++ [h]) (post s) s) as K. destruct (IH _ (P_kept _ _ H K)) as (E & K2). split; [exact E|now apply keeps_trans with (1 := K)].
  - destruct (in_post s); [split; [reflexivity|exact I]|]. pose proof (kept_fns (pre s) (post s ++ [h]) s) as K. destruct (IH _ (P_kept _ _ H K)) as (E & K2). split; [exact E|now apply keeps_trans with (1 := K)].
  - destruct (in_pre s || in_post s); [split; [reflexivity|exact I]|]. pose proof (kept_fns [] [] s) as K. destruct (IH _ (P_kept _ _ H K)) as (E & K2). split; [exact E|now apply keeps_trans with (1 := K)].
Qed.
End Exec.

(** Hooks run with the flag set; the depth does not matter to them. *)
Lemma exec_hook d d' p s : recurse s = true -> exec (fail (S d)) p s = exec (fail (S d')) p s /\ keeps s (exec (fail (S d)) p s).
Proof.
  apply (exec_agree _ _ (fun s => recurse s = true)).
  - intros a b H (K & _). congruence.
  - intros a c H. rewrite !fail_recursing by exact H. split; [reflexivity|]. cbn [keeps]. intros N. now repeat apply nobad_emit.
Qed.
Lemma guarded_kept d d' p s : recurse s = false -> guarded (exec (fail (S d))) p s = guarded (exec (fail (S d'))) p s /\ keeps s (guarded (exec (fail (S d))) p s).
Proof.
  intros H. unfold guarded. rewrite H. destruct (exec_hook d d' p (set_recurse true s) eq_refl) as (E & K). rewrite <- E.
  destruct (exec (fail (S d)) p (set_recurse true s)) as [s'|e s'|s'| |]; cbn [keeps] in K |- *; try (split; [reflexivity|exact K]).
  - destruct K as (K1 & K2 & K3 & K4). cbn [set_recurse recurse in_pre in_post] in *. unfold cleanup. rewrite K1. split; [reflexivity|]. repeat split; cbn [set_recurse recurse in_pre in_post]; auto.
  - destruct K as (K1 & K2 & K3 & K4). cbn [set_recurse recurse in_pre in_post] in *. unfold cleanup. rewrite K1. split; [reflexivity|]. repeat split; cbn [set_recurse recurse in_pre in_post]; auto.
Qed.
Lemma hooks_kept d d' c : forall hs s, recurse s = false -> run_hooks (exec (fail (S d))) hs c s = run_hooks (exec (fail (S d'))) hs c s /\ keeps s (run_hooks (exec (fail (S d))) hs c s).
Proof.
  induction hs as [|h t IH]; intros s H; cbn [run_hooks]; [split; [reflexivity|apply kept_refl]|].
  destruct (guarded_kept d d' (h c) s H) as (E & K). rewrite <- E. destruct (guarded (exec (fail (S d))) (h c) s) as [s'|e s'|s'| |]; cbn [keeps] in K; try (split; [reflexivity|exact K]).
  destruct (IH s') as (E2 & K2); [destruct K; congruence|]. split; [exact E2|now apply keeps_trans with s'].
Qed.
Lemma leave_pre s o : in_pre s = false -> keeps (set_in_pre true s) o -> keeps s (leave (set_in_pre false) o).
Proof. intros H. destruct o; cbn [keeps leave]; auto; intros (K1 & K2 & K3 & K4); repeat split; cbn [set_in_pre recurse in_pre in_post] in *; auto; congruence. Qed.
Lemma leave_post s o : in_post s = false -> keeps (set_in_post true s) o -> keeps s (leave (set_in_post false) o).
Proof. intros H. destruct o; cbn [keeps leave]; auto; intros (K1 & K2 & K3 & K4); repeat split; cbn [set_in_post recurse in_pre in_post] in *; auto; congruence. Qed.
Lemma fail_S depth s c : fail (S depth) s c =
  match (if recurse s then Normal (emit (Recursing (c_file c) (c_line c)) s)
         else leave (set_in_pre false) (run_hooks (exec (fail depth)) (pre s) c (set_in_pre true s))) with
  | Normal s =>
      match (if recurse s then Normal (emit (Report c) s)
             else leave (set_in_post false) (run_hooks (exec (fail depth)) (post s) c (set_in_post true (emit (Report c) s)))) with
      | Normal s => Dead s
      | o => o
      end
  | o => o
  end.
Proof. reflexivity. Qed.
Lemma fail_kept d d' s c : in_pre s = false -> in_post s = false -> fail (S (S d)) s c = fail (S (S d')) s c /\ keeps s (fail (S (S d)) s c).
Proof.
  intros Hi Ho. rewrite (fail_S (S d)), (fail_S (S d')). destruct (recurse s) eqn:R.
  - cbn [emit recurse]. rewrite R. split; [reflexivity|]. cbn [keeps]. intros N. now repeat apply nobad_emit.
  - pose proof (hooks_kept d d' c (pre s) (set_in_pre true s) R) as (E & K). rewrite <- E. apply (leave_pre s) in K; [|exact Hi].
    destruct (leave (set_in_pre false) (run_hooks (exec (fail (S d))) (pre s) c (set_in_pre true s))) as [s1|e s1|s1| |]; cbn [keeps] in K; try (split; [reflexivity|exact K]).
    pose proof K as (K1 & K2 & K3 & K4). rewrite K1, R.
    set (s2 := emit (Report c) s1). assert (Kr : kept s s2) by (apply kept_trans with (1 := K), kept_emit; discriminate).
    assert (R2 : recurse (set_in_post true s2) = false) by (change (recurse s1 = false); congruence).
    pose proof (hooks_kept d d' c (post s1) (set_in_post true s2) R2) as (E2 & L). rewrite <- E2. apply (leave_post s2) in L; [|change (in_post s1 = false); congruence].
    pose proof (keeps_trans _ _ _ Kr L) as M. destruct (leave (set_in_post false) (run_hooks (exec (fail (S d))) (post s1) c (set_in_post true s2))) as [s3|e s3|s3| |]; cbn [keeps] in M; try (split; [reflexivity|exact M]).
    split; [reflexivity|]. cbn [keeps]. apply M.
Qed.
(** Client code. *)
Lemma exec_client d d' p s : in_pre s = false -> in_post s = false -> exec (fail (S (S d))) p s = exec (fail (S (S d'))) p s /\ keeps s (exec (fail (S (S d))) p s).
Proof.
  intros Hi Ho. apply (exec_agree _ _ (fun s => in_pre s = false /\ in_post s = false)); [| |auto].
  - intros a b (A1 & A2) (_ & K2 & K3 & _). split; congruence.
  - intros a c (A1 & A2). now apply fail_kept.
Qed.
Lemma fail_not_normal d s c s' : fail d s c <> Normal s'.
Proof.
  destruct d as [|d]; [discriminate|]. rewrite fail_S. destruct (if recurse s then _ else _) as [s1|e s1|s1| |]; try discriminate. destruct (if recurse s1 then _ else _); discriminate.
Qed.
Lemma invariant_not_normal d w m s s' : invariant (fail d) w m s <> Normal s'.
Proof.
  unfold invariant. assert (B : forall o, (forall s', o <> Normal s') -> match o with
        | Throws (EAssert c _) s' => Throws (EAssert c false) s'
        | Throws (EStd _) s' => fail d s' {| c_expr := s_expr w; c_file := s_file w; c_line := s_line w; c_msg := "Exception evaluating " ++ s_src w |}
        | o => o end <> Normal s').
  { intros o N. destruct o as [s1|[c dv|n|n] s1|s1| |]; try discriminate; [exfalso; now apply (N s1)|apply fail_not_normal]. }
  apply B. intros s1. destruct m; try apply fail_not_normal. discriminate.
Qed.
(** ** Hooks that only print *)
Lemma exec_prints F ns k : forall s, exec F (prints ns k) s = exec F k (with_out s (map Out ns)).
Proof.
  induction ns as [|n t IH]; intros s; cbn [prints map exec]; [f_equal; destruct s; unfold with_out; cbn; now rewrite app_nil_r|]. rewrite IH. f_equal. destruct s; unfold with_out, emit; cbn. now rewrite <- app_assoc.
Qed.
Lemma with_out_app s a b : with_out (with_out s a) b = with_out s (a ++ b).
Proof. destruct s; unfold with_out; cbn. now rewrite app_assoc. Qed.
Lemma says_hooks F c : forall nss s, recurse s = false -> forall rest, run_hooks (exec F) (map says nss ++ rest) c s = run_hooks (exec F) rest c (with_out s (map Out (List.concat nss))).
Proof.
  induction nss as [|ns t IH]; intros s H rest; cbn [map app List.concat run_hooks]; [f_equal; destruct s; unfold with_out; cbn; now rewrite app_nil_r|].
  unfold guarded. rewrite H. unfold says at 1. rewrite exec_prints. cbn [exec]. unfold cleanup. cbn [with_out set_recurse recurse].
  replace (set_recurse false (with_out (set_recurse true s) (map Out ns))) with (with_out s (map Out ns)) by (destruct s; unfold with_out, set_recurse in *; cbn in *; now rewrite H).
  rewrite IH by exact H. rewrite with_out_app, map_app. reflexivity.
Qed.
