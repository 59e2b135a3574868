(** Model of the floating point members of include/Lintel/RandomBase.hpp:70-95. *)
From Coq Require Import List ZArith.
From Flocq Require Import Core BinarySingleNaN.
From Verif Require Import Common Double64.
Local Open Scope Z_scope.

(** RandomBase.hpp:71-76 *)
Definition MTR_int_to_open : double := ddiv (of_Z 1) (of_Z 4294967296).
Definition MTR_int_to_closed : double := ddiv (of_Z 1) (of_Z 4294967295).
Definition MTR_AMult : double := of_Z 67108864.
Definition MTR_53bits_to_open (a b : Z) : double := ddiv (dadd (dmul (of_Z a) MTR_AMult) (of_Z b)) (of_Z 9007199254740992).
Definition MTR_53bits_to_closed (a b : Z) : double := ddiv (dadd (dmul (of_Z a) MTR_AMult) (of_Z b)) (of_Z 9007199254740991).

Section random.
Context {G : Type}.
Variable next : G -> res (Z * G).
(** RandomBase.hpp:77-79, and randDouble at 83-85 *)
Definition randDoubleOpen (g : G) : res (double * G) :=
  let! (r, g) := next g in Ok (dmul (of_Z r) MTR_int_to_open, g).
(** RandomBase.hpp:80-82 *)
Definition randDoubleClosed (g : G) : res (double * G) :=
  let! (r, g) := next g in Ok (dmul (of_Z r) MTR_int_to_closed, g).
(** RandomBase.hpp:88-91 *)
Definition randDoubleOpen53 (g : G) : res (double * G) :=
  let! (r, g) := next g in
  let a := Z.shiftr r 5 in
  let! (r, g) := next g in
  let b := Z.shiftr r 6 in
  Ok (MTR_53bits_to_open a b, g).
(** RandomBase.hpp:92-95 *)
Definition randDoubleClosed53 (g : G) : res (double * G) :=
  let! (r, g) := next g in
  let a := Z.shiftr r 5 in
  let! (r, g) := next g in
  let b := Z.shiftr r 6 in
  Ok (MTR_53bits_to_closed a b, g).
End random.
