(** Model of SimpleMutex and SimpleScopedLock (include/Lintel/SimpleMutex.hpp:25-55,
    src/SimpleMutex.cpp:15-36) used by threads whose code has scopes with a lock in them and
    exceptions. *)
From Coq Require Import List Arith Bool.
From Verif Require Import Common.
Import ListNotations.

(** The code of a thread, as far as locks are concerned. [Act k] is any other code. *)
Inductive code : Type :=
| Skip
| Act (k : nat)
| Seq (a b : code)
| Scope (m : nat) (body : code)    (* { SimpleScopedLock lock(m); body } *)
| Throw
| TryCatch (a handler : code).
(** What a thread has still to do: code, the destructor of a SimpleScopedLock, and the end of
    a try block with its handler. *)
Inductive item : Type := Do (c : code) | Unlock (m : nat) | Catch (handler : code).
(** [unwinding]: an exception is on its way. *)
Record thread : Type := mk_thread { stack : list item; unwinding : bool }.
Inductive event : Type := Locked (t m : nat) | Unlocked (t m : nat) | Acted (t k : nat).
(** The holders of the mutexes, the threads, and what happened so far, the latest first. *)
Record state : Type := mk_state { holder : nat -> option nat; threads : list thread; trace : list event }.
Definition set_holder (h : nat -> option nat) (m : nat) (o : option nat) (x : nat) : option nat :=
  if x =? m then o else h x.

(** unlock, SimpleMutex.cpp:32-36, in the destructor of SimpleScopedLock, SimpleMutex.hpp:50-52.
    The mutex is of the default kind (line 17), for which unlocking a mutex that the thread
    does not hold is undefined. *)
Definition unlock (s : state) (t m : nat) (rest : list item) (unw : bool) : res state :=
  match holder s m with
  | Some t' => if t' =? t
               then Ok (mk_state (set_holder (holder s) m None) (upd (threads s) t (mk_thread rest unw)) (Unlocked t m :: trace s))
               else UB
  | None => UB
  end.
(** lock, SimpleMutex.cpp:26-30, in the constructor of SimpleScopedLock, SimpleMutex.hpp:46-48:
    while the mutex is held, by whichever thread, the thread waits, here by doing nothing
    when it is scheduled. *)
Definition lock (s : state) (t m : nat) (body : code) (rest : list item) : res state :=
  match holder s m with
  | Some _ => Ok s
  | None => Ok (mk_state (set_holder (holder s) m (Some t)) (upd (threads s) t (mk_thread (Do body :: Unlock m :: rest) false)) (Locked t m :: trace s))
  end.
(** Thread [t] is scheduled. The scopes that an exception leaves run their destructors. An
    exception that nobody catches ends the process. *)
Definition step (s : state) (t : nat) : res state :=
  match nth_error (threads s) t with
  | None => Ok s
  | Some th =>
      let set st u := Ok (mk_state (holder s) (upd (threads s) t (mk_thread st u)) (trace s)) in
      match stack th, unwinding th with
      | [], false => Ok s
      | [], true => Abort
      | Do _ :: r, true => set r true
      | Unlock m :: r, u => unlock s t m r u
      | Catch h :: r, true => set (Do h :: r) false
      | Catch _ :: r, false => set r false
      | Do c :: r, false =>
          match c with
          | Skip => set r false
          | Act k => Ok (mk_state (holder s) (upd (threads s) t (mk_thread r false)) (Acted t k :: trace s))
          | Seq a b => set (Do a :: Do b :: r) false
          | Scope m body => lock s t m body r
          | Throw => set r true
          | TryCatch a h => set (Do a :: Catch h :: r) false
          end
      end
  end.
Fixpoint run_from (s : state) (schedule : list nat) : res state :=
  match schedule with [] => Ok s | t :: r => let! s := step s t in run_from s r end.
Definition start (cs : list code) : state := mk_state (fun _ => None) (map (fun c => mk_thread [Do c] false) cs) [].
Definition run (cs : list code) (schedule : list nat) : res state := run_from (start cs) schedule.
Definition finished (s : state) (t : nat) : bool :=
  match nth_error (threads s) t with Some th => match stack th with [] => true | _ => false end | None => true end.
