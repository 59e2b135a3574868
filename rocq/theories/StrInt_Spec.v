(** Numerals. *)
From Coq Require Import List ZArith Bool.
Import ListNotations.
Local Open Scope Z_scope.

(** The character [c] is the digit [d] of a base up to 16, in either case. *)
Definition is_digit (base c d : Z) : Prop :=
  0 <= d < base /\ (d <= 9 /\ c = 48 + d \/ 10 <= d <= 15 /\ (c = 97 + (d - 10) \/ c = 65 + (d - 10))).
Definition value (base : Z) (ds : list Z) : Z := fold_left (fun a d => base * a + d) ds 0.
(** [s] is a numeral for the natural number [n]. *)
Definition natural (base : Z) (s : list Z) (n : Z) : Prop :=
  s <> [] /\ exists ds, Forall2 (is_digit base) s ds /\ n = value base ds.
(** [s] is a decimal numeral, with a sign or without, for [v]. *)
Definition integer (s : list Z) (v : Z) : Prop :=
  natural 10 s v \/ (exists r, s = 43 :: r /\ natural 10 r v) \/ (exists r n, s = 45 :: r /\ natural 10 r n /\ v = - n).
(** The lines of a file. *)
Fixpoint lines (file : list Z) : list (list Z) :=
  match file with
  | [] => [[]]
  | c :: r => if c =? 10 then [] :: lines r else match lines r with l :: ls => (c :: l) :: ls | [] => [[c]] end
  end.
