(** Model of the functions of lintel::StatsCubeFns, include/Lintel/StatsCube.hpp:19-36,
    over exact arithmetic. A double passed to a Stats is the extended number xnum. *)
From Coq Require Import List ZArith QArith.
From Verif Require Import Common Arith Stats_Model.

(** cubeAll, StatsCube.hpp:20-22, which is bound without arguments *)
Definition cubeAll {P : Type} (had_any : bool) (key : P) : bool := true.
(** cubeHadAny, lines 24-26, bound with _1; the default *)
Definition cubeHadAny {P : Type} (had_any : bool) (key : P) : bool := had_any.
(** addFullStats, lines 28-30; the default *)
Definition addFullStats (into val : stats exact) : stats exact := st_merge exact into val.
(** addMean, lines 32-34 *)
Definition addMean (into val : stats exact) : stats exact := st_add exact into (st_mean exact val).
