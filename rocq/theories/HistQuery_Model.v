(** Model of StatsHistogramUniform::mode and percentile (src/StatsHistogram.cpp:188-225) over
    an abstract arithmetic. checkInvariants is not modelled; default_epsilon of Double is an
    argument. *)
From Coq Require Import List ZArith Bool.
From Verif Require Import Common Arith Stats_Model Double_Model Histogram_Model.
Import ListNotations.
Local Open Scope Z_scope.

Section M.
Variable A : arith.

(** lines 192-197; [fuel] bounds the loop. *)
Fixpoint mode_loop (fuel : nat) (b : list Z) (num i max maxpos : Z) : res Z :=
  if i <? num then
    match fuel with
    | O => Fuel
    | S f => let! x := zget b i in
             if max <=? x then mode_loop f b num (i + 1) x i else mode_loop f b num (i + 1) max maxpos
    end
  else Ok maxpos.
(** lines 188-199 *)
Definition h_mode (h : hist A) : res A :=
  let! max := zget (bins h) 0 in
  let! maxpos := mode_loop (length (bins h)) (bins h) (num_bins h) 1 max 0 in
  Ok (nadd (bin_low h) (nmul (nadd (of_int maxpos) (ndiv (of_int 1) (of_int 2))) (bin_width h))).

(** lines 210-213: the bin and its lowend and highend. *)
Fixpoint percentile_loop (fuel : nat) (eps target : A) (b : list Z) (bin lowend highend : Z) : res (Z * Z * Z) :=
  if d_gt A eps target (of_int highend) then
    match fuel with
    | O => Fuel
    | S f => let! x := zget b (bin + 1) in percentile_loop f eps target b (bin + 1) highend (u64 (highend + x))
    end
  else Ok (bin, lowend, highend).
(** lines 202-225 *)
Definition h_percentile (eps : A) (h : hist A) (p : A) : res A :=
  let! _ := invariant (nle (of_int 0) p && nle p (of_int 1)) in
  let target := nmul p (of_int (st_count A (base h))) in
  let! b0 := zget (bins h) 0 in
  let! (bin, lowend, highend) := percentile_loop (length (bins h)) eps target (bins h) 0 0 b0 in
  if highend =? lowend then let! _ := invariant (bin =? 0) in Ok (of_int 0)
  else Ok (nadd (bin_low h) (nmul (bin_width h) (nadd (of_int bin) (ndiv (nsub target (of_int lowend)) (of_int (highend - lowend)))))).
End M.
