(** Specification vocabulary: texts of the system. *)
From Coq Require Import List ZArith.
Import ListNotations.
Local Open Scope Z_scope.

(** A text a C function can hand out: no zero byte. *)
Definition c_text (s : list Z) : Prop := ~ In 0 s.
(** [n] is the first name a list of answers has, some of which have none. *)
Definition first_name (answers : list (option (list Z))) (n : list Z) : Prop :=
  exists before after, answers = before ++ Some n :: after /\ forall a, In a before -> a = None.
