(** Model of LockOrderingGroup (include/Lintel/LockOrderingGroup.hpp) with PThreadScopedLock
    and PThreadScopedUnlock (include/Lintel/PThread.hpp.in:221-291), for any number of threads
    and mutexes and every interleaving.

    Simplifications: one ordering group; a finite double level is the integer number of
    2^-1074 it consists of (only comparisons are made on levels; the initial 0 is 0); a mutex is
    free or held by one thread, and lock() (trylock, then pthread_mutex_lock, PThread.hpp.in:
    163-170) is one step that is possible only when the mutex is free; an INVARIANT failure
    aborts the whole process; the thread-local part of a destructor is one step with the
    unlock before it, as no other thread can see the difference. *)
From Coq Require Import List ZArith Bool.
From Verif Require Import Common.
Import ListNotations.
Local Open Scope Z_scope.

(** A PThreadScopedLock object (PThread.hpp.in:257-262), ordering_group set. *)
Record lock_obj : Type := mkLock { l_mutex : nat; l_level : Z; l_old : Z }.
(** Objects alive on a thread's stack: locks, and PThreadScopedUnlock objects with the position
    of their parent on the stack (counted from the bottom) and the parent itself. *)
Inductive scope : Type := SLock (l : lock_obj) | SUnlock (parent : nat) (l : lock_obj).

(** Running, or inside a constructor/destructor after scopeDown, in mutex.lock(). *)
Inductive phase : Type := Running | Locking (l : lock_obj) (push : bool).
Record thread : Type := mkThread {
  cur_level : option Z;        (* LockOrderingGroup.hpp:47; None: prepare() not called *)
  scopes : list scope;         (* innermost first *)
  ph : phase
}.
Record state : Type := mkState { threads : nat -> thread; holder : nat -> option nat }.
Definition set {X} (f : nat -> X) (t : nat) (x : X) : nat -> X := fun u => if Nat.eqb u t then x else f u.

Definition init : state := mkState (fun _ => mkThread None [] Running) (fun _ => None).

(** LockOrderingGroup.hpp:35-40 *)
Definition prepare (x : thread) : thread :=
  match cur_level x with None => mkThread (Some 0) (scopes x) (ph x) | Some _ => x end.
(** LockOrderingGroup.hpp:52-59: the new current level and the old one *)
Definition scopeDown (cur : option Z) (new_level : Z) : res (option Z * Z) :=
  match cur with
  | None => UB
  | Some old => let! _ := invariant (old <? new_level) in Ok (Some new_level, old)
  end.
(** LockOrderingGroup.hpp:64-69 *)
Definition scopeUp (cur : option Z) (down_level old_level : Z) : res (option Z) :=
  match cur with
  | None => UB
  | Some c => let! _ := invariant (c =? down_level) in Ok (Some old_level)
  end.
(** PThread.hpp.in:172-177: unlocking a mutex of another thread, or a free one, is undefined *)
Definition unlock (s : state) (t m : nat) : res (nat -> option nat) :=
  match holder s m with
  | Some u => if Nat.eqb u t then Ok (set (holder s) m None) else UB
  | None => UB
  end.

Inductive choice : Type :=
| CPrepare (t : nat)                      (* group.prepare() *)
| CLock (t m : nat) (level : Z)           (* PThreadScopedLock(mutex, group, level): PThread.hpp.in:233-237 *)
| CAcquire (t : nat)                      (* mutex.lock() succeeds: lines 238, 287 *)
| CUnlock (t parent : nat)                (* PThreadScopedUnlock(parent): lines 271-279 *)
| CEnd (t : nat).                         (* the innermost object goes out of scope: 245-255, 281-286 *)

(** The object at position [p] from the bottom. *)
Definition at_bottom (l : list scope) (p : nat) : option scope := nth_error (rev l) p.

Definition step (s : state) (c : choice) : res state :=
  match c with
  | CPrepare t => Ok (mkState (set (threads s) t (prepare (threads s t))) (holder s))
  | CLock t m level =>
      let x := threads s t in
      match ph x with
      | Locking _ _ => Ok s
      | Running =>
          let! (cur, old) := scopeDown (cur_level x) level in
          Ok (mkState (set (threads s) t (mkThread cur (scopes x) (Locking (mkLock m level old) true))) (holder s))
      end
  | CAcquire t =>
      let x := threads s t in
      match ph x with
      | Locking l push =>
          match holder s (l_mutex l) with
          | None => Ok (mkState (set (threads s) t (mkThread (cur_level x) (if push then SLock l :: scopes x else scopes x) Running))
                                (set (holder s) (l_mutex l) (Some t)))
          | Some _ => Ok s   (* blocked *)
          end
      | Running => Ok s
      end
  | CUnlock t p =>
      let x := threads s t in
      match ph x, at_bottom (scopes x) p with
      | Running, Some (SLock l) =>
          let! cur := scopeUp (cur_level x) (l_level l) (l_old l) in
          let! h := unlock s t (l_mutex l) in
          Ok (mkState (set (threads s) t (mkThread cur (SUnlock p l :: scopes x) Running)) h)
      | _, _ => Ok s
      end
  | CEnd t =>
      let x := threads s t in
      match ph x, scopes x with
      | Running, SLock l :: r =>
          let! h := unlock s t (l_mutex l) in
          let! cur := scopeUp (cur_level x) (l_level l) (l_old l) in
          Ok (mkState (set (threads s) t (mkThread cur r Running)) h)
      | Running, SUnlock _ l :: r =>
          let! (cur, tmp_old) := scopeDown (cur_level x) (l_level l) in
          let! _ := invariant (tmp_old =? l_old l) in
          Ok (mkState (set (threads s) t (mkThread cur r (Locking l false))) (holder s))
      | _, _ => Ok s
      end
  end.
