(** Specification vocabulary for the TEST_INVARIANT macros. *)
From Coq Require Import List String ZArith Bool.
From Verif Require Import AssertBoost_Model AssertBoost_Spec.
Import ListNotations.
Local Open Scope string_scope.

(** Code that registers no assertion hooks of its own. *)
Fixpoint plain (p : prog) : Prop :=
  match p with
  | Ret | Throw _ => True
  | Print _ k => plain k
  | Invariant _ _ _ k => plain k
  | Try p h k => plain p /\ (forall e, plain (h e)) /\ plain k
  | AddBefore _ _ | AddAfter _ _ | ClearFns _ => False
  end.
(** The exception a failed invariant is, where failures are exceptions: an
    AssertBoostException with the data of the report; if evaluating the message throws an
    AssertBoostException, or something that is no std::exception, that. *)
Definition failure (w : site) (m : message) : exn :=
  match m with
  | MThrow (EAssert c _) => EAssert c false
  | MThrow (EOther n) => EOther n
  | _ => EAssert (call_at w (shown w m)) false
  end.
(** What a block of code does where failures are exceptions: what it prints, and the
    exception it ends with, if it does not run to its end. *)
Fixpoint behaves (p : prog) : list nat * option exn :=
  match p with
  | Ret => ([], None)
  | Print n k => let (l, e) := behaves k in (n :: l, e)
  | Throw e => ([], Some e)
  | Invariant true _ _ k => behaves k
  | Invariant false w m _ => ([], Some (failure w m))
  | Try p h k =>
      let (l, e) := behaves p in
      let (l', e') := match e with Some x => behaves (h x) | None => ([], None) end in
      match e' with
      | Some x => ((l ++ l')%list, Some x)
      | None => let (l2, e2) := behaves k in ((l ++ l' ++ l2)%list, e2)
      end
  | AddBefore _ k | AddAfter _ k | ClearFns k => behaves k
  end.
(** The block printed [l] and failed an invariant with message [msg]. *)
Definition fails_with (p : prog) (l : list nat) (msg : string) : Prop :=
  exists c d, behaves p = (l, Some (EAssert c d)) /\ c_msg c = msg.
(** No hooks registered, no assertion being reported: where a test starts. *)
Definition fresh (s : st) : Prop := idle s /\ pre s = [] /\ post s = [].
