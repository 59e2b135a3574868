(** Model of the quantiles printed by StatsQuantile (src/StatsQuantile.cpp:683-763).

    What is printed is modelled as the list of rows: the percentage printed as a
    label (if any), the argument given to getQuantile and its answer. The text around
    them, the header lines, the multiplier of the answers (samples are represented by
    their place in the order of doubles, see Quantile_Model.v) and printf rounding are
    not modelled. The loops run on fuel. *)
From Coq Require Import List ZArith Bool.
From Verif Require Import Common Arith Double_Model Quantile_Model.
Import ListNotations.
Local Open Scope Z_scope.

Section P.
Variable A : arith.

Record row := mk_row { r_label : option A; r_arg : A; r_val : option Z }.

(** Double::default_epsilon, src/Double.cpp:28 *)
Definition default_epsilon : A := ndiv (of_int 1) (of_int (10 ^ 12)).
(** Double::lt(quantile, 1.0), Double.hpp:71-73 *)
Definition below_one (q : A) : bool := d_lt A default_epsilon q (of_int 1).

(** The loop of printTextRanges, StatsQuantile.cpp:726-736 *)
Fixpoint text_ranges_loop (fuel : nat) (s : quantile) (nquantiles : Z) (q step : A) : res (list row * quantile) :=
  match fuel with
  | O => Fuel
  | S fuel =>
    if below_one q then
      let! (v, s) := getQuantile s q false in
      let label := if nquantiles mod 10 =? 0 then Some (nmul q (of_int 100)) else None in
      let! (rows, s) := text_ranges_loop fuel s (nquantiles + 1) (nadd q step) step in
      Ok (mk_row label q v :: rows, s)
    else Ok ([], s)
  end.

(** printTextRanges, StatsQuantile.cpp:717-738: None when there are no samples.
    [print_nrange] is the member set by the constructor and setNrange. *)
Definition printTextRanges (fuel : nat) (s : quantile) (print_nrange nranges : Z) : res (option (list row) * quantile) :=
  let nranges := if nranges =? -1 then print_nrange else nranges in
  if q_count s =? 0 then Ok (None, s) else
  let step := ndiv (of_int 1) (of_int nranges) in
  let! (rows, s) := text_ranges_loop fuel s 0 step step in
  Ok (Some rows, s).

(** The loop over tail_frac of printTextTail (StatsQuantile.cpp:753-762, limit 10) and
    of printRome (StatsQuantile.cpp:699-706, limit 1) *)
Fixpoint tail_loop (fuel : nat) (s : quantile) (limit : Z) (nentries tail_frac : A) : res (list row * quantile) :=
  match fuel with
  | O => Fuel
  | S fuel =>
    if nle (of_int limit) (nmul tail_frac nentries) then
      let q1 := nsub (of_int 1) tail_frac in
      let! (v1, s) := getQuantile s q1 false in
      let tail_frac := ndiv tail_frac (of_int 2) in
      let q2 := nsub (of_int 1) tail_frac in
      let! (v2, s) := getQuantile s q2 false in
      let tail_frac := ndiv tail_frac (of_int 5) in
      let! (rows, s) := tail_loop fuel s limit nentries tail_frac in
      Ok (mk_row (Some (nmul (of_int 100) q1)) q1 v1 :: mk_row (Some (nmul (of_int 100) q2)) q2 v2 :: rows, s)
    else Ok ([], s)
  end.
(** the literal 0.1 *)
Definition tenth : A := ndiv (of_int 1) (of_int 10).

(** printTextTail, StatsQuantile.cpp:750-763 *)
Definition printTextTail (fuel : nat) (s : quantile) : res (list row * quantile) :=
  tail_loop fuel s 10 (of_int (q_count s)) tenth.

(** The first loop of printRome, StatsQuantile.cpp:692-698 *)
Fixpoint rome_ranges_loop (fuel : nat) (s : quantile) (q step : A) : res (list row * quantile) :=
  match fuel with
  | O => Fuel
  | S fuel =>
    if below_one q then
      let! (v, s) := getQuantile s q false in
      let! (rows, s) := rome_ranges_loop fuel s (nadd q step) step in
      Ok (mk_row (Some (nmul q (of_int 100))) q v :: rows, s)
    else Ok ([], s)
  end.

(** printRome, StatsQuantile.cpp:683-709: the rows of the two loops, None when there are
    no samples *)
Definition printRome (fuel : nat) (s : quantile) (print_nrange : Z) : res (option (list row * list row) * quantile) :=
  if q_count s <=? 0 then Ok (None, s) else
  let step := ndiv (of_int 1) (of_int print_nrange) in
  let! (r1, s) := rome_ranges_loop fuel s step step in
  let! (r2, s) := tail_loop fuel s 1 (of_int (q_count s)) tenth in
  Ok (Some (r1, r2), s).
End P.
Arguments mk_row {A}.
Arguments r_label {A}.
Arguments r_arg {A}.
Arguments r_val {A}.
