(** Model of the TEST_INVARIANT_* macros of include/Lintel/TestUtil.hpp, as programs of
    AssertBoost_Model. *)
From Coq Require Import List String ZArith Bool.
From Verif Require Import AssertBoost_Model.
Import ListNotations.
Local Open Scope string_scope.

(** code; q. The code is a block that ends normally, throws, or fails an invariant; return
    and goto out of it are not modelled. *)
Fixpoint andThen (code q : prog) : prog :=
  match code with
  | Ret => q
  | Print n k => Print n (andThen k q)
  | Throw e => Throw e
  | Invariant b w m k => Invariant b w m (andThen k q)
  | Try p h k => Try p h (andThen k q)
  | AddBefore h k => AddBefore h (andThen k q)
  | AddAfter h k => AddAfter h (andThen k q)
  | ClearFns k => ClearFns (andThen k q)
  end.
(** FATAL_ERROR(MessagE), AssertBoost.hpp:76-86: the failing branch of INVARIANT, with the
    expression text "Fatal error". *)
Definition fatalError (file : string) (line : Z) (src : string) (m : message) (k : prog) : prog :=
  Invariant false {| s_expr := "Fatal error"; s_file := file; s_line := line; s_src := src |} m k.
(** TestUtil.hpp:31-34: the loop that looks for the message *)
Fixpoint found (msg : string) (messages : list string) : bool :=
  match messages with
  | [] => false
  | m :: t => if String.eqb msg m then true else found msg t
  end.
(** TEST_INVARIANT_MSGVEC(code, messages); k — TestUtil.hpp:23-36. All lines of an expanded
    macro have the same __FILE__ and __LINE__. The handler is for AssertBoostException and
    classes derived from it; the others pass. *)
Definition TEST_INVARIANT_MSGVEC (file : string) (line : Z) (code : prog) (messages : list string) (k : prog) : prog :=
  AddBefore throwExceptionFn
    (Try (andThen code (fatalError file line """no invariant happened""" (MText "no invariant happened") Ret))
       (fun e => match e with
                 | EAssert c _ =>
                     ClearFns
                       (Invariant (found (c_msg c) messages)
                          {| s_expr := "found"; s_file := file; s_line := line;
                             s_src := "boost::format(""unexpected error message '%s'"") % e.msg" |}
                          (MText ("unexpected error message '" ++ c_msg c ++ "'")) Ret)
                 | e => Throw e
                 end) k).
(** TestUtil.hpp:39-42, 45, 48-51, 54-57 *)
Definition TEST_INVARIANT_MSG1 (file : string) (line : Z) (code : prog) (m : string) (k : prog) : prog :=
  TEST_INVARIANT_MSGVEC file line code [m] k.
Definition TEST_INVARIANT_MSG2 (file : string) (line : Z) (code : prog) (m1 m2 : string) (k : prog) : prog :=
  TEST_INVARIANT_MSGVEC file line code [m1; m2] k.
Definition TEST_INVARIANT_MSG3 (file : string) (line : Z) (code : prog) (m1 m2 m3 : string) (k : prog) : prog :=
  TEST_INVARIANT_MSGVEC file line code [m1; m2; m3] k.
