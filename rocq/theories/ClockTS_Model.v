(** Model of src/ClockPThread.cpp: Clock::perThreadInit and Clock::perThread, for any number
    of threads, with other code of the program that uses pthread keys of its own. A thread
    makes one step at a time; threads are interleaved. Reads and writes of the static
    variables are steps of their own (sequentially consistent; a race is undefined behaviour
    in C++, the model shows what the interleavings would do). *)
From Coq Require Import List Arith Bool.
Import ListNotations.

Definition tid := nat.
Definition key := nat.
(** A pointer kept under a key: a clock, numbered in the order of allocation, or a pointer
    of other code. *)
Inductive ptr := Clk (n : nat) | Foreign (n : nat).
Inductive owner := Ours | Theirs.
(** Where a thread is. perThreadInit: before the lock, the test of did_per_thread_init, its
    assignment, pthread_key_create, calibrateClock, the unlock. perThread: pthread_getspecific,
    the INVARIANT, new Clock, pthread_setspecific. *)
Inductive pc := Idle | ILock | ICheck | IFlag | IKey | ICalibrate | IUnlock | GGet | GTest | GNew | GSet (p : ptr).
(** What is seen: calls, returns, calibrations, failures. *)
Inductive event :=
  | EInit (t : tid) | EInitDone (t : tid) | ECalibrate (t : tid) | EKeyFails (t : tid)
  | EGet (t : tid) | EReturn (t : tid) (p : ptr) | ENotReady (t : tid) | ESetFails (t : tid).
(** did_per_thread_init, Clock::per_thread_clock, whether the clock is calibrated, the owner
    of the mutex, the keys in use, the values under them, how many clocks were allocated,
    where the threads are, and whether the program was aborted. *)
Record state := mk_state {
  did_init : bool; per_thread_clock : key; calibrated : bool; locked : option tid;
  keys : key -> option owner; specific : tid -> key -> option ptr; clocks : nat;
  pcs : tid -> pc; dead : bool }.
Definition set {A} (f : nat -> A) (i : nat) (x : A) : nat -> A := fun j => if j =? i then x else f j.
Definition at_pc (s : state) (t : tid) (p : pc) : state :=
  mk_state (did_init s) (per_thread_clock s) (calibrated s) (locked s) (keys s) (specific s) (clocks s) (set (pcs s) t p) (dead s).
Definition with_lock (s : state) (l : option tid) : state :=
  mk_state (did_init s) (per_thread_clock s) (calibrated s) l (keys s) (specific s) (clocks s) (pcs s) (dead s).
Definition with_init (s : state) : state :=
  mk_state true (per_thread_clock s) (calibrated s) (locked s) (keys s) (specific s) (clocks s) (pcs s) (dead s).
Definition with_calibrated (s : state) : state :=
  mk_state (did_init s) (per_thread_clock s) true (locked s) (keys s) (specific s) (clocks s) (pcs s) (dead s).
Definition with_var (s : state) (k : key) : state :=
  mk_state (did_init s) k (calibrated s) (locked s) (keys s) (specific s) (clocks s) (pcs s) (dead s).
(** pthread_key_create: the value under a new key is NULL in all threads. *)
Definition create (s : state) (k : key) (o : owner) : state :=
  mk_state (did_init s) (per_thread_clock s) (calibrated s) (locked s) (set (keys s) k (Some o))
    (fun t => set (specific s t) k None) (clocks s) (pcs s) (dead s).
Definition with_value (s : state) (t : tid) (k : key) (p : option ptr) : state :=
  mk_state (did_init s) (per_thread_clock s) (calibrated s) (locked s) (keys s) (set (specific s) t (set (specific s t) k p)) (clocks s) (pcs s) (dead s).
Definition with_clock (s : state) : state :=
  mk_state (did_init s) (per_thread_clock s) (calibrated s) (locked s) (keys s) (specific s) (S (clocks s)) (pcs s) (dead s).
Definition abort (s : state) : state :=
  mk_state (did_init s) (per_thread_clock s) (calibrated s) (locked s) (keys s) (specific s) (clocks s) (pcs s) true.
(** What the scheduler, the system and the program choose at a step: to go on (a new key gets
    number [k]); that the system call fails; to call one of the two functions; or other code
    creates or deletes a key or sets a value under its key. *)
Inductive choice := Go (k : key) | Fails | CallInit | CallGet | OtherCreate (k : key) | OtherDelete (k : key) | OtherSet (k : key) (n : option nat).
(** pthread_getspecific of a key that is not in use gives NULL here (it is undefined). *)
Definition getspecific (s : state) (t : tid) (k : key) : option ptr :=
  match keys s k with Some _ => specific s t k | None => None end.
Definition step (t : tid) (c : choice) (s : state) : option (state * list event) :=
  if dead s then None
  else match pcs s t, c with
  | Idle, CallInit => Some (at_pc s t ILock, [EInit t])
  | Idle, CallGet => Some (at_pc s t GGet, [EGet t])
  (* other code *)
  | Idle, OtherCreate k => match keys s k with None => Some (create s k Theirs, []) | Some _ => None end
  | Idle, OtherDelete k => match keys s k with
                           | Some Theirs => Some (mk_state (did_init s) (per_thread_clock s) (calibrated s) (locked s) (set (keys s) k None)
                                                   (specific s) (clocks s) (pcs s) (dead s), [])
                           | _ => None end
  | Idle, OtherSet k n => match keys s k with Some Theirs => Some (with_value s t k (option_map Foreign n), []) | _ => None end
  (* ClockPThread.cpp:13 *)
  | ILock, Go _ => match locked s with None => Some (at_pc (with_lock s (Some t)) t ICheck, []) | Some _ => None end
  (* 18-20 *)
  | ICheck, Go _ => Some (at_pc s t (if did_init s then IUnlock else IFlag), [])
  (* 24 *)
  | IFlag, Go _ => Some (at_pc (with_init s) t IKey, [])
  (* 25 *)
  | IKey, Go k => match keys s k with
                  | None => Some (at_pc (with_var (create s k Ours) k) t ICalibrate, [])
                  | Some _ => None end
  | IKey, Fails => Some (abort s, [EKeyFails t])
  (* 26; the calibration itself is in ClockCC_Model *)
  | ICalibrate, Go _ => Some (at_pc (with_calibrated s) t IUnlock, [ECalibrate t])
  (* 27 *)
  | IUnlock, Go _ => Some (at_pc (with_lock s None) t Idle, [EInitDone t])
  (* 30-31, 37 *)
  | GGet, Go _ => match getspecific s t (per_thread_clock s) with
                  | Some p => Some (at_pc s t Idle, [EReturn t p])
                  | None => Some (at_pc s t GTest, [])
                  end
  (* 32-33 *)
  | GTest, Go _ => if did_init s && calibrated s then Some (at_pc s t GNew, []) else Some (abort s, [ENotReady t])
  (* 34 *)
  | GNew, Go _ => Some (at_pc (with_clock s) t (GSet (Clk (clocks s))), [])
  (* 35, 37; the result of pthread_setspecific is not looked at *)
  | GSet p, Go _ => Some (at_pc (with_value s t (per_thread_clock s) (Some p)) t Idle, [EReturn t p])
  | GSet p, Fails => Some (at_pc s t Idle, [ESetFails t; EReturn t p])
  | _, _ => None
  end.
(** The start of the program *)
Definition init : state :=
  mk_state false 0 false None (fun _ => None) (fun _ _ => None) 0 (fun _ => Idle) false.
(** A run of the program, and all it shows, oldest first. *)
Inductive runs : state -> list event -> Prop :=
  | R_init : runs init []
  | R_step s tr t c s' es : runs s tr -> step t c s = Some (s', es) -> runs s' (tr ++ es).
