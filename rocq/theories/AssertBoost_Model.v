(** Model of src/AssertBoost.cpp and of the macros of include/Lintel/AssertBoost.hpp.
    One thread. Programs that use the macros, and hooks, are terms of [prog]; the C++
    features they may use are output, exceptions, invariants and the registration calls. *)
From Coq Require Import List String ZArith Bool.
Import ListNotations.
Local Open Scope string_scope.

(** The arguments of AssertBoostFail and of a hook: expression, file, line, message. *)
Record call := { c_expr : string; c_file : string; c_line : Z; c_msg : string }.
(** Exceptions: an AssertBoostException with the data it holds (AssertBoost.hpp:36-50), or
    an object of a class [derived] from it; another std::exception; anything else. *)
Inductive exn := EAssert (c : call) (derived : bool) | EStd (n : nat) | EOther (n : nat).
(** The MessagE argument of a macro: a string, a boost::format whose str() finds too many
    or too few arguments or throws something else, or an expression that throws while it is
    evaluated (as boost::format does on a malformed format). *)
Inductive message := MText (s : string) | MTooMany | MTooFew | MStrThrows | MThrow (e : exn).
(** Where a macro stands: the text of the tested expression, file, line, and the text of
    the MessagE argument. *)
Record site := { s_expr : string; s_file : string; s_line : Z; s_src : string }.
Inductive prog :=
  | Ret                                              (* return *)
  | Print (n : nat) (k : prog)                       (* some output *)
  | Throw (e : exn)
  | Invariant (b : bool) (w : site) (m : message) (k : prog)   (* INVARIANT(b, m); k *)
  | Try (p : prog) (h : exn -> prog) (k : prog)      (* try {p} catch (...) {h}; k *)
  | AddBefore (h : call -> prog) (k : prog)          (* AssertBoostFnBefore(h); k *)
  | AddAfter (h : call -> prog) (k : prog)           (* AssertBoostFnAfter(h); k *)
  | ClearFns (k : prog).                             (* AssertBoostClearFns(); k *)
Definition hook := call -> prog.
(** What is seen on the outside: output of programs and hooks; the report of a failed
    assertion, AssertBoost.cpp:79-93; the notice of a recursion, 148-149; the report of a
    wrong recursion flag, 126-127 and 134-135. *)
Inductive event := Out (n : nat) | Report (c : call) | Recursing (file : string) (line : Z) | BadFlag.
(** The static variables: the hook vectors (AssertBoost.cpp:25) and the recursion flag (77);
    the output so far; and whether the loop over either vector is running. *)
Record st := { pre : list hook; post : list hook; recurse : bool; out : list event; in_pre : bool; in_post : bool }.
Definition emit (e : event) (s : st) : st :=
  {| pre := pre s; post := post s; recurse := recurse s; out := out s ++ [e]; in_pre := in_pre s; in_post := in_post s |}.
Definition set_recurse (b : bool) (s : st) : st :=
  {| pre := pre s; post := post s; recurse := b; out := out s; in_pre := in_pre s; in_post := in_post s |}.
Definition set_in_pre (b : bool) (s : st) : st :=
  {| pre := pre s; post := post s; recurse := recurse s; out := out s; in_pre := b; in_post := in_post s |}.
Definition set_in_post (b : bool) (s : st) : st :=
  {| pre := pre s; post := post s; recurse := recurse s; out := out s; in_pre := in_pre s; in_post := b |}.
Definition set_fns (a b : list hook) (s : st) : st :=
  {| pre := a; post := b; recurse := recurse s; out := out s; in_pre := in_pre s; in_post := in_post s |}.
(** [Dead] is AssertBoostFailDie, AssertBoost.cpp:101-118: abort(). [Undef] is undefined
    behaviour: changing a vector while a loop over it runs. [Deep] is an artefact of the
    model: the bound on nested calls of AssertBoostFail is exhausted. *)
Inductive outcome := Normal (s : st) | Throws (e : exn) (s : st) | Dead (s : st) | Undef | Deep.
(** The message AssertBoostFail(…, format) passes on, AssertBoost.cpp:178-192 *)
Definition text (m : message) : string :=
  match m with
  | MText s => s
  | MTooMany => "**** Programmer error, format given too many arguments"
  | MTooFew => "**** Programmer error, format given too few arguments"
  | MStrThrows => "**** Unknown error, exception thrown during format evaluation"
  | MThrow _ => ""
  end.
(** The failing branch of INVARIANT, AssertBoost.hpp:95-108: an AssertBoostException is
    copied (throw e), another std::exception is taken for a failed evaluation of MessagE,
    anything else passes. *)
Definition invariant (fail : st -> call -> outcome) (w : site) (m : message) (s : st) : outcome :=
  let body := match m with
              | MThrow e => Throws e s
              | _ => fail s {| c_expr := s_expr w; c_file := s_file w; c_line := s_line w; c_msg := text m |}
              end in
  match body with
  | Throws (EAssert c _) s' => Throws (EAssert c false) s'
  | Throws (EStd _) s' => fail s' {| c_expr := s_expr w; c_file := s_file w; c_line := s_line w;
                                     c_msg := "Exception evaluating " ++ s_src w |}
  | o => o
  end.
(** Running a program; [fail] is AssertBoostFail. AssertBoostFnBefore, AssertBoostFnAfter
    and AssertBoostClearFns are AssertBoost.cpp:59-76. push_back and clear while a loop over
    the same vector runs are undefined here (push_back may reallocate). *)
Fixpoint exec (fail : st -> call -> outcome) (p : prog) (s : st) : outcome :=
  match p with
  | Ret => Normal s
  | Print n k => exec fail k (emit (Out n) s)
  | Throw e => Throws e s
  | Invariant b w m k =>
      if b then exec fail k s
      else match invariant fail w m s with Normal s' => exec fail k s' | o => o end
  | Try p h k =>
      match exec fail p s with
      | Throws e s' => match exec fail (h e) s' with Normal s'' => exec fail k s'' | o => o end
      | Normal s' => exec fail k s'
      | o => o
      end
  | AddBefore h k => if in_pre s then Undef else exec fail k (set_fns (pre s ++ [h]) (post s) s)
  | AddAfter h k => if in_post s then Undef else exec fail k (set_fns (pre s) (post s ++ [h]) s)
  | ClearFns k => if in_pre s || in_post s then Undef else exec fail k (set_fns [] [] s)
  end.
(** One hook under AssertBoostCleanupRecurse, AssertBoost.cpp:122-140: the constructor
    checks and sets the flag, the destructor checks and clears it, also when the hook
    throws. *)
Definition cleanup (s : st) (o : st -> outcome) : outcome :=
  if recurse s then o (set_recurse false s) else Dead (emit BadFlag s).
Definition guarded (run : prog -> st -> outcome) (p : prog) (s : st) : outcome :=
  if recurse s then Dead (emit BadFlag s)
  else match run p (set_recurse true s) with
       | Normal s' => cleanup s' Normal
       | Throws e s' => cleanup s' (Throws e)
       | o => o
       end.
(** The loop over a hook vector, AssertBoost.cpp:158-162 and 167-171 *)
Fixpoint run_hooks (run : prog -> st -> outcome) (hs : list hook) (c : call) (s : st) : outcome :=
  match hs with
  | [] => Normal s
  | h :: t => match guarded run (h c) s with Normal s' => run_hooks run t c s' | o => o end
  end.
(** The loop is left normally or by an exception. *)
Definition leave (f : st -> st) (o : outcome) : outcome :=
  match o with Normal s => Normal (f s) | Throws e s => Throws e (f s) | o => o end.
(** AssertBoostFail, AssertBoost.cpp:142-176; flushing and the optional sleep are left out. *)
Fixpoint fail (depth : nat) (s : st) (c : call) : outcome :=
  match depth with
  | O => Deep
  | S depth =>
      let run := exec (fail depth) in
      match (if recurse s then Normal (emit (Recursing (c_file c) (c_line c)) s)
             else leave (set_in_pre false) (run_hooks run (pre s) c (set_in_pre true s))) with
      | Normal s =>
          let s := emit (Report c) s in
          match (if recurse s then Normal s
                 else leave (set_in_post false) (run_hooks run (post s) c (set_in_post true s))) with
          | Normal s => Dead s
          | o => o
          end
      | o => o
      end
  end.
(** A program that uses Lintel, started with no hooks registered. *)
Definition start : st := {| pre := []; post := []; recurse := false; out := []; in_pre := false; in_post := false |}.
Definition run (p : prog) : outcome := exec (fail 2) p start.
(** AssertBoostThrowExceptionFn, AssertBoost.cpp:50-53, as a hook *)
Definition throwExceptionFn : hook := fun c => Throw (EAssert c false).
