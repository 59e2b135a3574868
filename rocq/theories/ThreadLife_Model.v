(** Model of the life of PThread and PThreadNoSignals objects (src/PThread.cpp,
    include/Lintel/PThread.hpp.in) on top of a small model of POSIX threads.

    One client thread, the "master" of PThread.hpp.in:51-58, makes, starts, joins, signals and destroys
    objects; the threads it started run beside it under any schedule. A failed INVARIANT is an
    exception here, as with AssertBoostThrowExceptionFn, so that the client may carry on. *)
From Coq Require Import List Arith ZArith Bool.
From Verif Require Import Common.
Import ListNotations.

(** A set of signals: bit i stands for signal i + 1. *)
Definition sigset := Z.
(** sigfillset: all of the 64 signals of Linux. SIGKILL and SIGSTOP, which cannot be blocked, are
    counted as blocked. *)
Definition filled : sigset := (2 ^ 64 - 1)%Z.

(** PThread.hpp.in:80-82. [last_tid] is [None] while it holds the zeroes of PThread.cpp:135. Of the
    attributes only the detach state is kept. [nosig]: the object is a PThreadNoSignals. [destroyed]
    is set by the destructor. *)
Record pthread := PT { nosig : bool; thread_live : bool; last_tid : option nat; detached : bool; destroyed : bool }.

(** What the system keeps for a thread: the argument of pthread_starter, the signal mask it inherited,
    whether it was created detached, and how far it has come. *)
Inductive progress := Ready | Running | Returned (v : Z) | Gone.
Record thread := TH { t_obj : nat; t_mask : sigset; t_detached : bool; t_progress : progress }.

Record state := ST { objs : list pthread; threads : list thread; mask : sigset }.
(** Thread ids are positions in [threads]: simplification, the system may give an id again after the
    thread is gone; the model treats every use of such an id as undefined anyway. *)
Definition state0 : state := ST [] [] 0%Z.

(** What is observed. *)
Inductive seen :=
| SNew (o : nat) (nosig : bool)
| SMask (m : sigset)                         (* the client set its signal mask *)
| SStarted (o t : nat) (m : sigset)          (* start() of o returned t, which has signal mask m *)
| SBegan (t : nat)                           (* thread t enters run() *)
| SReturned (t : nat) (v : Z)                (* run() returns v in t *)
| SJoined (o : nat) (v : Z)                  (* join() of o returned v *)
| SKilled (o t : nat) (rc : Z)               (* kill() of o signalled t and returned rc *)
| SDetach (o : nat) (b : bool)
| SDestroyed (o : nat)
| SThrew (o : nat).                          (* a call on o failed an INVARIANT *)

Inductive outcome :=
| Next (s : state) (x : seen)
| Undefined
| Waits.                                     (* the call blocks, or the step is not possible yet *)

(** A call on an object that does not exist or was destroyed is undefined. *)
Definition on (s : state) (o : nat) (f : pthread -> outcome) : outcome :=
  match nth_error (objs s) o with
  | Some p => if destroyed p then Undefined else f p
  | None => Undefined
  end.
Definition set_obj (s : state) (o : nat) (p : pthread) : state := ST (upd (objs s) o p) (threads s) (mask s).
Definition set_thread (s : state) (t : nat) (th : thread) : state := ST (objs s) (upd (threads s) t th) (mask s).
Definition set_mask (s : state) (m : sigset) : state := ST (objs s) (threads s) m.

(** PThread.cpp:129-136. *)
Definition construct (ns : bool) (s : state) : outcome :=
  Next (ST (objs s ++ [PT ns false None false false]) (threads s) (mask s)) (SNew (length (objs s)) ns).
(** PThread.cpp:138-140. *)
Definition destruct_ (o : nat) (s : state) : outcome :=
  on s o (fun p => Next (set_obj s o (PT (nosig p) (thread_live p) (last_tid p) (detached p) true)) (SDestroyed o)).
(** PThread.cpp:142-147. *)
Definition setDetached (o : nat) (b : bool) (s : state) : outcome :=
  on s o (fun p => Next (set_obj s o (PT (nosig p) (thread_live p) (last_tid p) b (destroyed p))) (SDetach o b)).

(** PThread.cpp:192-202. [ret] is what pthread_create returns; when it is 0 there is a new thread with
    the signal mask of its creator. *)
Definition start_plain (o : nat) (ret : Z) (p : pthread) (s : state) : outcome :=
  if thread_live p then Next s (SThrew o) else
  if negb (ret =? 0)%Z then Next s (SThrew o) else
  let tid := length (threads s) in
  let s := ST (objs s) (threads s ++ [TH o (mask s) (detached p) Ready]) (mask s) in
  Next (set_obj s o (PT (nosig p) true (Some tid) (detached p) (destroyed p))) (SStarted o tid (mask s)).
(** PThread.cpp:285-296. The second pthread_sigmask is skipped when PThread::start throws. *)
Definition start_nosig (o : nat) (ret : Z) (p : pthread) (s : state) : outcome :=
  let oldset := mask s in
  match start_plain o ret p (set_mask s (Z.lor (mask s) filled)) with
  | Next s' (SThrew o) => Next s' (SThrew o)
  | Next s' x => Next (set_mask s' oldset) x
  | r => r
  end.
(** start() is virtual: PThread.hpp.in:76, 99. *)
Definition start (o : nat) (ret : Z) (s : state) : outcome :=
  on s o (fun p => if nosig p then start_nosig o ret p s else start_plain o ret p s).

(** pthread_join: undefined for an id that is not that of a joinable thread; waits for the thread. *)
Definition pthread_join (t : option nat) (s : state) : option thread :=
  match t with
  | Some t => match nth_error (threads s) t with
      | Some th => if t_detached th then None else match t_progress th with Gone => None | _ => Some th end
      | None => None end
  | None => None
  end.
(** PThread.cpp:204-211. *)
Definition join (o : nat) (s : state) : outcome :=
  on s o (fun p =>
    if negb (thread_live p) then Next s (SThrew o) else
    match last_tid p, pthread_join (last_tid p) s with
    | Some t, Some th =>
        match t_progress th with
        | Returned v =>
            let s := set_thread s t (TH (t_obj th) (t_mask th) (t_detached th) Gone) in
            Next (set_obj s o (PT (nosig p) false (last_tid p) (detached p) (destroyed p))) (SJoined o v)
        | _ => Waits
        end
    | _, _ => Undefined
    end).

(** errno.h of Linux *)
Definition EINVAL : Z := 22.
(** PThread.cpp:213-217. [rc] is what pthread_kill returns; it is undefined for an id that is not that
    of a thread that is still there. *)
Definition kill (o : nat) (rc : Z) (s : state) : outcome :=
  on s o (fun p =>
    match last_tid p with
    | Some t => match nth_error (threads s) t with
        | Some th => match t_progress th with
            | Gone => Undefined
            | _ => if (rc =? EINVAL)%Z then Next s (SThrew o) else Next s (SKilled o t rc)
            end
        | None => Undefined end
    | None => Undefined
    end).

(** PThread.cpp:187-190, the call of run() in the new thread. The object must still be there. *)
Definition begin (t : nat) (s : state) : outcome :=
  match nth_error (threads s) t with
  | Some th => match t_progress th with
      | Ready => on s (t_obj th) (fun _ => Next (set_thread s t (TH (t_obj th) (t_mask th) (t_detached th) Running)) (SBegan t))
      | _ => Waits end
  | None => Waits
  end.
(** run() returns [v]: a detached thread is gone at once, another one waits to be joined. run() is
    taken to use its object until the end. *)
Definition finish (t : nat) (v : Z) (s : state) : outcome :=
  match nth_error (threads s) t with
  | Some th => match t_progress th with
      | Running => on s (t_obj th) (fun _ => Next (set_thread s t (TH (t_obj th) (t_mask th) (t_detached th) (if t_detached th then Gone else Returned v))) (SReturned t v))
      | _ => Waits end
  | None => Waits
  end.

Inductive event :=
| New (ns : bool) | SetMask (m : sigset) | SetDetached (o : nat) (b : bool)
| Start (o : nat) (ret : Z) | Join (o : nat) | Kill (o : nat) (rc : Z) | Destroy (o : nat)
| Begin (t : nat) | Finish (t : nat) (v : Z).
Definition step (s : state) (e : event) : outcome :=
  match e with
  | New ns => construct ns s
  | SetMask m => Next (set_mask s m) (SMask m)
  | SetDetached o b => setDetached o b s
  | Start o ret => start o ret s
  | Join o => join o s
  | Kill o rc => kill o rc s
  | Destroy o => destruct_ o s
  | Begin t => begin t s
  | Finish t v => finish t v s
  end.
