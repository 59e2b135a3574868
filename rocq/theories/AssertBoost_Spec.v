(** Specification vocabulary for assertion failures. *)
From Coq Require Import List String ZArith Bool.
From Verif Require Import AssertBoost_Model.
Import ListNotations.
Local Open Scope string_scope.

(** No assertion is being reported: the state any client code runs in. *)
Definition idle (s : st) : Prop := recurse s = false /\ in_pre s = false /\ in_post s = false.
(** A hook that writes the given output and returns. *)
Fixpoint prints (ns : list nat) (k : prog) : prog := match ns with [] => k | n :: t => Print n (prints t k) end.
Definition says (ns : list nat) : hook := fun _ => prints ns Ret.
(** The state with more output. *)
Definition with_out (s : st) (es : list event) : st :=
  {| pre := pre s; post := post s; recurse := recurse s; out := (out s ++ es)%list; in_pre := in_pre s; in_post := in_post s |}.
Definition call_at (w : site) (msg : string) : call :=
  {| c_expr := s_expr w; c_file := s_file w; c_line := s_line w; c_msg := msg |}.
(** The message a report shows when the message argument cannot be formatted or evaluated. *)
Definition shown (w : site) (m : message) : string :=
  match m with
  | MText s => s
  | MTooMany => "**** Programmer error, format given too many arguments"
  | MTooFew => "**** Programmer error, format given too few arguments"
  | MStrThrows => "**** Unknown error, exception thrown during format evaluation"
  | MThrow _ => "Exception evaluating " ++ s_src w
  end.
(** Calls that register hooks, as a program would make them, and what is registered after
    them: a hook for before, a hook for after, AssertBoostClearFns. *)
Inductive reg := RBefore (ns : list nat) | RAfter (ns : list nat) | RClear.
Fixpoint register (rs : list reg) (k : prog) : prog :=
  match rs with
  | [] => k
  | RBefore ns :: t => AddBefore (says ns) (register t k)
  | RAfter ns :: t => AddAfter (says ns) (register t k)
  | RClear :: t => ClearFns (register t k)
  end.
Fixpoint since_clear (rs : list reg) : list reg :=
  match rs with
  | [] => []
  | r :: t => if existsb (fun r => match r with RClear => true | _ => false end) t then since_clear t
              else match r with RClear => t | _ => r :: t end
  end.
Definition befores (rs : list reg) : list nat := List.concat (map (fun r => match r with RBefore ns => ns | _ => [] end) rs).
Definition afters (rs : list reg) : list nat := List.concat (map (fun r => match r with RAfter ns => ns | _ => [] end) rs).
