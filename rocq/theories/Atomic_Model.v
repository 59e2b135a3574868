(** Model of lintel::Atomic<T> (include/Lintel/AtomicCounter.hpp), as configured there
    (LINTEL_USE_GCC_ASM_ATOMICS, line 22), under every interleaving of any number of threads.

    One step of a thread is one machine instruction on the counter. Simplifications: the
    counter is one memory word and instructions on it are executed one after the other (every
    write to it is a locked instruction or an xchg, which drain the store buffer on x86, so a
    single word behaves sequentially consistently); registers and locals are private. *)
From Coq Require Import List ZArith Bool.
From Verif Require Import Atomic_Spec.
Import ListNotations.
Local Open Scope Z_scope.

Section WithWidth.
Variable w : Z.   (* bits of T *)

(** Which bitwise function a compare-and-swap loop applies. *)
Inductive bitop : Type := BOr | BAnd | BXor.
Definition bit_fn (b : bitop) : Z -> Z -> Z := match b with BOr => Z.lor | BAnd => Z.land | BXor => Z.lxor end.

(** The next instruction of a thread inside an operation.
    [IMov] line 120; [IXchg] lines 126, 130; [ICmpxchg] line 136; [IXadd] line 146;
    [ILoopLoad]/[ILoopCas] the load and the compare-exchange of the loops of lines 155-160,
    164-169, 173-178, with the local [expected]. [post]: what the caller does with the
    fetched value before returning it (lines 276-285). [IRet]: about to return. *)
Inductive pc : Type :=
| IMov
| IXchg (v : Z) (returns : bool)
| ICmpxchg (expected desired : Z)
| IXadd (v : Z) (post : Z -> Z)
| ILoopLoad (b : bitop) (v : Z) (post : Z -> Z)
| ILoopCas (b : bitop) (v expected : Z) (post : Z -> Z)
| IRet (r : ares).

(** First instruction of each operation: include/Lintel/AtomicCounter.hpp:253-285 with the
    macros of lines 91-95; fetch_sub adds -v (line 151). *)
Definition start (op : aop) : pc :=
  match op with
  | Load => IMov                                                          (* 253-255 *)
  | Store v => IXchg v false                                              (* 256-258 *)
  | Exchange v => IXchg v true                                            (* 263-265 *)
  | CompareExchange e d => ICmpxchg e d                                   (* 267-268 *)
  | FetchAdd v => IXadd v (fun x => x)                                    (* 270 *)
  | FetchSub v => IXadd (word w (- v)) (fun x => x)                       (* 271 *)
  | FetchOr v => ILoopLoad BOr v (fun x => x)                             (* 272 *)
  | FetchAnd v => ILoopLoad BAnd v (fun x => x)                           (* 273 *)
  | FetchXor v => ILoopLoad BXor v (fun x => x)                           (* 274 *)
  | AddFetch v => IXadd v (fun x => word w (x + v))                       (* 276 *)
  | SubFetch v => IXadd (word w (- v)) (fun x => word w (x - v))          (* 277 *)
  | OrFetch v => ILoopLoad BOr v (fun x => Z.lor x v)                     (* 278 *)
  | AndFetch v => ILoopLoad BAnd v (fun x => Z.land x v)                  (* 279 *)
  | XorFetch v => ILoopLoad BXor v (fun x => Z.lxor x v)                  (* 280 *)
  | PostInc => IXadd (word w 1) (fun x => x)                              (* 282 *)
  | PostDec => IXadd (word w (- 1)) (fun x => x)                          (* 283 *)
  | PreInc => IXadd (word w 1) (fun x => word w (x + 1))                  (* 284 *)
  | PreDec => IXadd (word w (- 1)) (fun x => word w (x - 1))              (* 285 *)
  end.

(** One instruction: new counter and new position (lines 118-179). *)
Definition instr (m : Z) (p : pc) : Z * pc :=
  match p with
  | IMov => (m, IRet (RVal m))
  | IXchg v ret => (v, IRet (if ret then RVal m else RUnit))
  | ICmpxchg e d => if m =? e then (d, IRet (RCas true e)) else (m, IRet (RCas false m))
  | IXadd v post => (word w (m + v), IRet (RVal (post m)))
  | ILoopLoad b v post => (m, ILoopCas b v m post)
  | ILoopCas b v e post =>
      if m =? e then (bit_fn b e v, IRet (RVal (post e)))
      else (m, ILoopCas b v m post)
  | IRet r => (m, IRet r)
  end.

(** A thread is idle or inside call number [id]. *)
Inductive tstate : Type := Idle | Busy (id : nat) (p : pc).

Record state : Type := mkState {
  counter : Z;
  threads : nat -> tstate;   (* any number of threads *)
  next_id : nat;
  history : list event
}.
Definition set_thread (f : nat -> tstate) (t : nat) (x : tstate) : nat -> tstate :=
  fun u => if Nat.eqb u t then x else f u.

(** Lines 229-233 *)
Definition init (v : Z) : state := mkState v (fun _ => Idle) 0 [].

(** The scheduler's choices: thread [t] calls an operation (if idle), executes its next
    instruction, or returns. Impossible choices do nothing. *)
Inductive choice : Type := CCall (t : nat) (op : aop) | CStep (t : nat) | CReturn (t : nat).
Definition step (s : state) (c : choice) : state :=
  match c with
  | CCall t op =>
      match threads s t with
      | Idle => mkState (counter s) (set_thread (threads s) t (Busy (next_id s) (start op)))
                        (S (next_id s)) (history s ++ [Call (next_id s) t op])
      | Busy _ _ => s
      end
  | CStep t =>
      match threads s t with
      | Busy id p => let (m, p') := instr (counter s) p in
                     mkState m (set_thread (threads s) t (Busy id p')) (next_id s) (history s)
      | Idle => s
      end
  | CReturn t =>
      match threads s t with
      | Busy id (IRet r) => mkState (counter s) (set_thread (threads s) t Idle) (next_id s)
                                    (history s ++ [Return id t r])
      | _ => s
      end
  end.
Definition run (s : state) (sched : list choice) : state := fold_left step sched s.

End WithWidth.
