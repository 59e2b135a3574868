(** Model of Stats (include/Lintel/Stats.hpp:52-103, src/Stats.cpp), over an abstract
    arithmetic. reset_count and stddev/conf95 (square roots) are in StatsDev_Model; the
    destructor check and the printing functions are not modelled. *)
From Coq Require Import List ZArith QArith.
From Verif Require Import Common Arith Stats_Spec.
Import ListNotations.
Local Open Scope Z_scope.

(** include/Lintel/Stats.hpp:54-58. [number] is an unsigned long long. *)
Record stats (A : arith) : Type := mkStats { number : Z; sum : A; sumsq : A; min_value : A; max_value : A }.
Arguments mkStats {A}.
Arguments number {A}.
Arguments sum {A}.
Arguments sumsq {A}.
Arguments min_value {A}.
Arguments max_value {A}.

Section M.
Variable A : arith.

(** src/Stats.cpp:71-86 *)
Definition st_new : stats A :=
  {| number := 0; sum := of_int 0; sumsq := of_int 0; min_value := pinf; max_value := nopp pinf |}.
Definition st_reset (s : stats A) : stats A := st_new.

(** src/Stats.cpp:88-101 *)
Definition st_add (s : stats A) (value : A) : stats A :=
  {| number := (number s + 1) mod 2 ^ 64;
     sum := nadd (sum s) value;
     sumsq := nadd (sumsq s) (nmul value value);
     min_value := if nlt value (min_value s) then value else min_value s;
     max_value := if nlt (max_value s) value then value else max_value s |}.

(** src/Stats.cpp:103-114. When [stat] is the object itself every field is still read
    before it is written, so the same definition applies. *)
Definition st_merge (s stat : stats A) : stats A :=
  {| number := (number s + number stat) mod 2 ^ 64;
     sum := nadd (sum s) (sum stat);
     sumsq := nadd (sumsq s) (sumsq stat);
     min_value := if nlt (min_value stat) (min_value s) then min_value stat else min_value s;
     max_value := if nlt (max_value s) (max_value stat) then max_value stat else max_value s |}.

(** include/Lintel/Stats.hpp:75-78 *)
Definition st_count (s : stats A) : Z := number s.
Definition st_total (s : stats A) : A := sum s.
Definition st_total_sq (s : stats A) : A := sumsq s.

(** src/Stats.cpp:122-129 *)
Definition st_mean (s : stats A) : A :=
  if number s =? 0 then of_int 0 else ndiv (sum s) (of_int (number s)).

(** src/Stats.cpp:132-137 *)
Definition st_variance (s : stats A) : A :=
  if number s =? 0 then of_int 0
  else let m := st_mean s in nsub (ndiv (sumsq s) (of_int (number s))) (nmul m m).
End M.

(** Running a program on a family of objects; [val] turns a sample into a number. *)
Definition st_step {X} (A : arith) (val : X -> A) (f : nat -> stats A) (o : op X) : nat -> stats A :=
  match o with
  | OAdd i x => set_nth f i (st_add A (f i) (val x))
  | OMerge i j => set_nth f i (st_merge A (f i) (f j))
  | OReset i => set_nth f i (st_reset A (f i))
  end.
Definition st_run {X} (A : arith) (val : X -> A) (ops : list (op X)) : nat -> stats A :=
  fold_left (st_step A val) ops (fun _ => st_new A).
