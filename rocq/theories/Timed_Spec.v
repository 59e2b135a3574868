(** Vocabulary for the timed waits. *)
From Coq Require Import List ZArith.
Import ListNotations.
Local Open Scope Z_scope.

(** A normalised time: the nanoseconds are a fraction of a second. *)
Definition normal (t : Z * Z) : Prop := 0 <= snd t < 10 ^ 9.
(** The time in nanoseconds. *)
Definition nanos (t : Z * Z) : Z := fst t * 10 ^ 9 + snd t.
