(** Model of the storage of Matrix (include/Lintel/Matrix.hpp, src/Matrix.cpp): matrices of
    a program with their arrays on a heap, the 32-bit computation of sizes and indices, and
    copies. What is stored is of any type, with the value 0.0. *)
From Coq Require Import List Arith ZArith Bool.
From Verif Require Import Common.
Import ListNotations.
Open Scope Z_scope.

Section M.
Variable V : Type.
Variable zero : V.
(** Whether DEBUG_SINVARIANT is compiled in *)
Variable debug : bool.

(** The heap of arrays: None after delete[]. An address is not used again. *)
Definition heap : Type := list (option (list V)).
(** The members of a Matrix, Matrix.hpp:68-69: data is an address *)
Record mat : Type := mk_mat { data : nat; nrows : Z; ncols : Z }.
(** The matrices of the program by number, None after the destructor *)
Record state : Type := mk_state { arrays : heap; mats : list (option mat) }.

Definition u32 (z : Z) : Z := z mod 2 ^ 32.
(** resize, Matrix.cpp:26-33: the array that data pointed to is not deleted. setConstant
    (lines 49-54) goes over as many elements as were allocated. *)
Definition resize (h : heap) (rows cols : Z) : heap * mat :=
  (h ++ [Some (repeat zero (Z.to_nat (u32 (rows * cols))))], mk_mat (length h) rows cols).

Definition live (s : state) (i : nat) : res mat :=
  match nth_error (mats s) i with Some (Some m) => Ok m | _ => UB end.
Definition array (s : state) (m : mat) : res (list V) :=
  match nth_error (arrays s) (data m) with Some (Some a) => Ok a | _ => UB end.
Definition check (m : mat) (row col : Z) : res unit :=
  if debug then invariant ((row <? nrows m) && (col <? ncols m)) else Ok tt.
Definition index (m : mat) (row col : Z) : nat := Z.to_nat (u32 (row * ncols m + col)).

(** set, Matrix.hpp:29-36 *)
Definition set (s : state) (i : nat) (row col : Z) (v : V) : res state :=
  let! m := live s i in
  let! _ := check m row col in
  let! a := array s m in
  let! a := put a (index m row col) v in
  Ok (mk_state (upd (arrays s) (data m) (Some a)) (mats s)).
(** get, Matrix.hpp:40-47 *)
Definition get_elem (s : state) (i : nat) (row col : Z) : res V :=
  let! m := live s i in
  let! _ := check m row col in
  let! a := array s m in
  get a (index m row col).
(** The loop of setRow, Matrix.cpp:41-43, over the arguments; taking one that was not passed
    is undefined. *)
Fixpoint setRow_loop (s : state) (i : nat) (row col : Z) (n : nat) (args : list V) : res state :=
  match n with
  | O => Ok s
  | S n => match args with
           | [] => UB
           | v :: args => let! s := set s i row col v in setRow_loop s i row (col + 1) n args
           end
  end.
(** setRow, Matrix.cpp:35-46; the arguments after the row are [args] and a NaN, which only a
    debug build looks at. *)
Definition setRow (nan : V) (is_nan : V -> bool) (s : state) (i : nat) (row : Z) (args : list V) : res state :=
  let! m := live s i in
  let! s := setRow_loop s i row 0 (Z.to_nat (ncols m)) (args ++ [nan]) in
  let! _ := (if debug then let! v := get (args ++ [nan]) (Z.to_nat (ncols m)) in invariant (is_nan v) else Ok tt) in
  Ok s.

Inductive op : Type :=
| New (rows cols : Z)                  (* Matrix.cpp:16-19 *)
| Resize (i : nat) (rows cols : Z)
| Set_ (i : nat) (row col : Z) (v : V)
| Get_ (i : nat) (row col : Z)
| SetRow (i : nat) (row : Z) (args : list V)
| Delete (i : nat)                     (* the destructor, Matrix.cpp:21-24 *)
| Copy (i : nat).                      (* the implicit copy constructor *)
Variable nan : V.
Variable is_nan : V -> bool.
Definition step (s : state) (o : op) : res (state * option V) :=
  match o with
  | New r c => let '(h, m) := resize (arrays s) r c in Ok (mk_state h (mats s ++ [Some m]), None)
  | Resize i r c => let! _ := live s i in
                    let '(h, m) := resize (arrays s) r c in Ok (mk_state h (upd (mats s) i (Some m)), None)
  | Set_ i row col v => let! s := set s i row col v in Ok (s, None)
  | Get_ i row col => let! v := get_elem s i row col in Ok (s, Some v)
  | SetRow i row args => let! s := setRow nan is_nan s i row args in Ok (s, None)
  | Delete i => let! m := live s i in
                let! _ := array s m in
                Ok (mk_state (upd (arrays s) (data m) None) (upd (mats s) i None), None)
  | Copy i => let! m := live s i in Ok (mk_state (arrays s) (mats s ++ [Some m]), None)
  end.
Definition run (l : list op) : list (res (option V)) := run_ops step (mk_state [] []) l.
Definition final (l : list op) : res state := exec_ops step (mk_state [] []) l.
End M.
Arguments New {V}. Arguments Resize {V}. Arguments Set_ {V}. Arguments Get_ {V}. Arguments SetRow {V}. Arguments Delete {V}. Arguments Copy {V}.
Arguments arrays {V}. Arguments mats {V}.
