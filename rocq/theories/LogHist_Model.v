(** Model of StatsHistogramLog (src/StatsHistogram.cpp:345-499) and StatsHistogramLogAccum
    (lines 717-760) over an abstract arithmetic and its log() and exp(). num_rescales, which
    numRescales() does not report, checkInvariants and printing are not modelled. *)
From Coq Require Import List ZArith Bool.
From Verif Require Import Common Arith Stats_Model Histogram_Model HistQuery_Model.
Import ListNotations.
Local Open Scope Z_scope.

(** include/Lintel/StatsHistogram.hpp:167-173 *)
Record lhist (A : arith) : Type := mkLHist {
  l_base : stats A;
  l_num : Z;
  l_small : A;
  l_high : A;
  l_scaling : A;
  l_scalable : bool;
  l_bins : list Z
}.
Arguments mkLHist {A}.
Arguments l_base {A}.
Arguments l_num {A}.
Arguments l_small {A}.
Arguments l_high {A}.
Arguments l_scaling {A}.
Arguments l_scalable {A}.
Arguments l_bins {A}.

Section M.
Variable A : arith.
Variable log_ exp_ : A -> A.
Local Notation lhist := (lhist A).

Definition l_with_base (h : lhist) (s : stats A) : lhist := mkLHist s (l_num h) (l_small h) (l_high h) (l_scaling h) (l_scalable h) (l_bins h).
Definition l_with_bins (h : lhist) (b : list Z) : lhist := mkLHist (l_base h) (l_num h) (l_small h) (l_high h) (l_scaling h) (l_scalable h) b.
(** lines 385-391 *)
Definition l_reset (h : lhist) : lhist := l_with_bins (l_with_base h (st_reset A (l_base h))) (repeat 0 (length (l_bins h))).
(** lines 345-376 *)
Definition l_new (bins_in : Z) (smallest high : A) (scalable : bool) : res lhist :=
  let num := 2 * (u32 (bins_in + 1) / 2) in
  let! _ := invariant (0 <? bins_in) in
  let! _ := invariant (nlt (of_int 0) smallest) in
  let! _ := invariant (nle smallest high) in
  let scaling := ndiv (of_int num) (log_ (ndiv high smallest)) in
  Ok (l_reset (mkLHist (st_new A) num smallest high scaling scalable (repeat 0 (Z.to_nat num)))).

(** lines 395-399 *)
Definition l_index (h : lhist) (index : Z) : res Z :=
  let! _ := invariant (index <=? l_num h) in zget (l_bins h) index.

(** lines 402-411 *)
Definition l_sampleBin (h : lhist) (x : A) : res Z :=
  if nle x (l_small h) then Ok 0
  else
    let! bin := floor_unsigned 32 (nmul (l_scaling h) (log_ (ndiv x (l_small h)))) in
    if l_num h <=? bin then Ok (u32 (l_num h - 1)) else Ok bin.
(** lines 415-418 *)
Definition binOffset (h : lhist) (index : A) : A := nmul (l_small h) (exp_ (ndiv index (l_scaling h))).
(** include/Lintel/StatsHistogram.hpp:193-199 *)
Definition l_binWidth0 (h : lhist) : A := binOffset h (of_int 1).
Definition l_binWidth (h : lhist) (i : Z) : A := nsub (binOffset h (of_int (u32 (i + 1)))) (binOffset h (of_int i)).
Definition l_binlow (h : lhist) (i : Z) : A := binOffset h (of_int i).
Definition l_bincenter (h : lhist) (i : Z) : A := binOffset h (nadd (of_int i) (ndiv (of_int 1) (of_int 2))).
Definition l_binhigh (h : lhist) (i : Z) : A := binOffset h (of_int (u32 (i + 1))).
(** lines 202: isScalable() *)
Definition l_isScalable (h : lhist) : bool := false.

(** one turn of the loop at lines 430-438; the merging loops are those of the uniform
    histogram (lines 433-437 read as 155-161 there). *)
Definition l_low_once (h : lhist) : res lhist :=
  let scaling := ndiv (l_scaling h) (of_int 2) in
  let small := ndiv (l_high h) (exp_ (ndiv (of_int (l_num h)) scaling)) in
  let! (b, i) := merge_up (length (l_bins h)) (l_bins h) (s32 (l_num h - 1)) (s32 (l_num h - 2)) in
  let! b := zero_down (length (l_bins h)) b i in
  Ok (mkLHist (l_base h) (l_num h) small (l_high h) scaling (l_scalable h) b).
(** one turn of the loop at lines 439-447 *)
Definition l_high_once (h : lhist) : res lhist :=
  let scaling := ndiv (l_scaling h) (of_int 2) in
  let high := nmul (l_small h) (exp_ (ndiv (of_int (l_num h)) scaling)) in
  let! (b, i) := merge_down (length (l_bins h)) (l_num h / 2) (l_bins h) 0 0 in
  let! b := zero_up (length (l_bins h)) (l_num h) b i in
  Ok (mkLHist (l_base h) (l_num h) (l_small h) high scaling (l_scalable h) b).
(** [fuel] bounds the number of turns *)
Fixpoint l_low_loop (fuel : nat) (h : lhist) (value : A) : res lhist :=
  if nlt value (l_small h) then
    match fuel with
    | O => Fuel
    | S f => let! h' := l_low_once h in l_low_loop f h' value
    end
  else Ok h.
Fixpoint l_high_loop (fuel : nat) (h : lhist) (value : A) : res lhist :=
  if nle (l_high h) value then
    match fuel with
    | O => Fuel
    | S f => let! h' := l_high_once h in l_high_loop f h' value
    end
  else Ok h.
(** lines 427-448 *)
Definition l_scale (fuel : nat) (h : lhist) (value : A) : res lhist :=
  if l_scalable h && (nlt value (l_small h) || nle (l_high h) value) then
    let! h1 := l_low_loop fuel h value in l_high_loop fuel h1 value
  else Ok h.
(** lines 422-452 *)
Definition l_add (fuel : nat) (h : lhist) (value : A) : res lhist :=
  let! _ := invariant (nlt (of_int 0) value) in
  let! h := l_scale fuel (l_with_base h (st_add A (l_base h) value)) value in
  let! bin := l_sampleBin h value in
  let! c := zget (l_bins h) bin in
  let! b := zput (l_bins h) bin (u64 (c + 1)) in
  Ok (l_with_bins h b).
Fixpoint l_adds (fuel : nat) (h : lhist) (l : list A) : res lhist :=
  match l with
  | [] => Ok h
  | x :: r => let! h := l_add fuel h x in l_adds fuel h r
  end.

(** lines 462-473: the loop is that of the uniform histogram (lines 192-197). *)
Definition l_mode (h : lhist) : res A :=
  let! max := zget (l_bins h) 0 in
  let! maxpos := mode_loop (length (l_bins h)) (l_bins h) (l_num h) 1 max 0 in
  Ok (l_bincenter h maxpos).
(** lines 484-487 *)
Fixpoint l_percentile_loop (fuel : nat) (target : A) (b : list Z) (bin lowend highend : Z) : res (Z * Z * Z) :=
  if nle target (of_int highend) then Ok (bin, lowend, highend)
  else
    match fuel with
    | O => Fuel
    | S f => let! x := zget b (bin + 1) in l_percentile_loop f target b (bin + 1) highend (u64 (highend + x))
    end.
(** lines 476-499 *)
Definition l_percentile (h : lhist) (p : A) : res A :=
  let! _ := invariant (nle (of_int 0) p && nle p (of_int 1)) in
  let target := nmul p (of_int (st_count A (l_base h))) in
  let! b0 := zget (l_bins h) 0 in
  let! (bin, lowend, highend) := l_percentile_loop (length (l_bins h)) target (l_bins h) 0 0 b0 in
  if highend =? lowend then let! _ := invariant (bin =? 0) in Ok (of_int 0)
  else Ok (binOffset h (nadd (of_int bin) (ndiv (nsub target (of_int lowend)) (of_int (highend - lowend))))).

(** StatsHistogramLogAccum: include/Lintel/StatsHistogram.hpp:233, lines 717-726. The
    constructor's reset overwrites what [new double[]] leaves. *)
Record laccum : Type := mkLAccum { la_counts : lhist; la_vals : list A }.
Definition la_reset (a : laccum) : laccum := mkLAccum (l_reset (la_counts a)) (repeat (of_int 0) (length (la_vals a))).
Definition la_new (bins_in : Z) (smallest high : A) : res laccum :=
  let! h := l_new bins_in smallest high false in
  Ok (la_reset (mkLAccum h (repeat (of_int 0) (Z.to_nat (l_num h))))).
(** lines 749-755; add(value) at 739-745 is add(value, value) *)
Definition la_add (a : laccum) (index data : A) : res laccum :=
  let h := l_with_base (la_counts a) (st_add A (l_base (la_counts a)) data) in
  let! bin := l_sampleBin h index in
  let! c := zget (l_bins h) bin in
  let! b := zput (l_bins h) bin (u64 (c + 1)) in
  let! s := zget (la_vals a) bin in
  let! v := zput (la_vals a) bin (nadd s data) in
  Ok (mkLAccum (l_with_bins h b) v).
Fixpoint la_adds (a : laccum) (l : list (A * A)) : res laccum :=
  match l with
  | [] => Ok a
  | (i, d) :: r => let! a := la_add a i d in la_adds a r
  end.
(** lines 757-761 *)
Definition la_value (a : laccum) (index : Z) : res A :=
  let! _ := invariant (index <=? l_num (la_counts a)) in zget (la_vals a) index.
End M.
Arguments la_counts {A}.
Arguments la_vals {A}.
