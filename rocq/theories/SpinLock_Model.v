(** Model of the spin locks of include/Lintel/Lock.hpp under every interleaving of any number
    of threads on x86-TSO memory: a plain store enters the thread's store buffer, reaches
    memory later, in order; a load sees the thread's own newest buffered store to that
    location, else memory; a locked instruction (or xchg) waits until the buffer is empty.

    Two memory words are modelled: the lock and one shared variable [data] that clients only
    touch between lock() and unlock(). Simplifications: one shared variable stands for all
    protected data and is an unbounded integer; rdlock and wrlock are the same function in the
    code, so there is one lock call; pause, yield and the retry count of AtomicSpinLock (lines
    100-106) have no effect on memory and are left out. *)
From Coq Require Import List ZArith Bool.
Import ListNotations.
Local Open Scope Z_scope.

(** GlibcPosixSpinLock (50-87), SpinLockYield (123-177), AtomicSpinLock (89-121). *)
Inductive kind : Type := Glibc | Yield | AtomicSpin.

(** 32-bit int arithmetic of lock decl / lock xadd. *)
Definition int32 (z : Z) : Z := (z + 2 ^ 31) mod 2 ^ 32 - 2 ^ 31.

(** The next instruction of a thread.
    GDec: line 68-69; GTest: lines 73-75.
    YFirst: line 141; YDec: lines 143-144; YTest k: lines 147-153 and 162-168 with spincount k.
    ADec: line 101 (operator-- is fetch_sub(1)-1, a lock xadd).
    Crit: lock() has returned; CritW r: inside, has read r from data, about to store r+1. *)
Inductive pc : Type :=
| Out | GDec | GTest | YFirst | YDec (k : nat) | YTest (k : nat) | ADec | Crit | CritW (r : Z).

Inductive loc : Type := LLock | LData.
Record thread : Type := mkThread { at_pc : pc; buf : list (loc * Z) }.
Record state : Type := mkState {
  lock_word : Z;
  data : Z;
  threads : nat -> thread;
  increments : Z   (* how many increments of data the threads have issued: not part of the program *)
}.
Definition set_thread (f : nat -> thread) (t : nat) (x : thread) : nat -> thread :=
  fun u => if Nat.eqb u t then x else f u.

(** A load by a thread with buffer [b] (oldest first). *)
Fixpoint newest (l : loc) (b : list (loc * Z)) (d : Z) : Z :=
  match b with
  | [] => d
  | (l', v) :: r => newest l r (match l, l' with LLock, LLock | LData, LData => v | _, _ => d end)
  end.
Definition load (s : state) (x : thread) (l : loc) : Z :=
  newest l (buf x) (match l with LLock => lock_word s | LData => data s end).

(** The constructors store 1: lines 83, 117, 173. *)
Definition init : state := mkState 1 0 (fun _ => mkThread Out []) 0.

Section K.
Variable k : kind.

Definition lock_start : pc := match k with Glibc => GDec | Yield => YFirst | AtomicSpin => ADec end.

(** What the scheduler can do with thread [t]. *)
Inductive choice : Type :=
| CLock (t : nat)      (* call lock() *)
| CStep (t : nat)      (* one instruction of lock(), or the store of an increment *)
| CRead (t : nat)      (* inside: load data *)
| CUnlock (t : nat)    (* call unlock() *)
| CFlush (t : nat).    (* the oldest buffered store reaches memory *)

Definition step (s : state) (c : choice) : state :=
  match c with
  | CLock t =>
      let x := threads s t in
      match at_pc x with
      | Out => mkState (lock_word s) (data s) (set_thread (threads s) t (mkThread lock_start (buf x))) (increments s)
      | _ => s
      end
  | CStep t =>
      let x := threads s t in
      let goto p := mkState (lock_word s) (data s) (set_thread (threads s) t (mkThread p (buf x))) (increments s) in
      let dec ok fail :=   (* lock decl: waits for an empty buffer; jump on zero *)
        match buf x with
        | [] => let v := int32 (lock_word s - 1) in
                mkState v (data s) (set_thread (threads s) t (mkThread (if v =? 0 then ok else fail) [])) (increments s)
        | _ => s
        end in
      match at_pc x with
      | GDec => dec Crit GTest
      | GTest => if 0 <? load s x LLock then goto GDec else goto GTest
      | YFirst => if load s x LLock =? 1 then goto (YDec 4) else goto (YTest 4)
      | YDec n => dec Crit (YTest n)
      | YTest n =>
          if load s x LLock =? 1 then goto (YDec n)
          else match n with
               | S (S n') => goto (YTest (S n'))
               | _ => goto YFirst       (* spincount reached 0: yield and start over *)
               end
      | ADec => dec Crit ADec
      | CritW r => mkState (lock_word s) (data s) (set_thread (threads s) t (mkThread Crit (buf x ++ [(LData, r + 1)]))) (increments s + 1)
      | Out | Crit => s
      end
  | CRead t =>
      let x := threads s t in
      match at_pc x with
      | Crit => mkState (lock_word s) (data s) (set_thread (threads s) t (mkThread (CritW (load s x LData)) (buf x))) (increments s)
      | _ => s
      end
  | CUnlock t =>
      let x := threads s t in
      match at_pc x with
      | Crit =>
          match k with
          | AtomicSpin =>   (* lines 96, 120: rwl = 1 is store(1), an xchg *)
              match buf x with
              | [] => mkState 1 (data s) (set_thread (threads s) t (mkThread Out [])) (increments s)
              | _ => s
              end
          | _ =>            (* lines 62, 133: a plain movl *)
              mkState (lock_word s) (data s) (set_thread (threads s) t (mkThread Out (buf x ++ [(LLock, 1)]))) (increments s)
          end
      | _ => s
      end
  | CFlush t =>
      let x := threads s t in
      match buf x with
      | [] => s
      | (LLock, v) :: r => mkState v (data s) (set_thread (threads s) t (mkThread (at_pc x) r)) (increments s)
      | (LData, v) :: r => mkState (lock_word s) v (set_thread (threads s) t (mkThread (at_pc x) r)) (increments s)
      end
  end.
Definition run (s : state) (sched : list choice) : state := fold_left step sched s.
End K.

Definition who (c : choice) : nat :=
  match c with CLock t | CStep t | CRead t | CUnlock t | CFlush t => t end.
