(** Model of StatsHistogramUniformAccum (src/StatsHistogram.cpp:568-652) over an abstract
    arithmetic: a uniform histogram with a second array, val_bins. What [new double[]] leaves in
    val_bins is overwritten by reset before it is read; it is modelled as zeros. *)
From Coq Require Import List ZArith Bool.
From Verif Require Import Common Arith Stats_Model Histogram_Model.
Import ListNotations.
Local Open Scope Z_scope.

Record accum (A : arith) : Type := mkAccum { counts : hist A; val_bins : list A }.
Arguments mkAccum {A}.
Arguments counts {A}.
Arguments val_bins {A}.

Section M.
Variable A : arith.
Local Notation accum := (accum A).

(** lines 589-590: val_bins[bin] = 0.0 for bin < num_bins *)
Fixpoint zero_vals (n : nat) (v : list A) (bin : Z) : res (list A) :=
  match n with
  | O => Ok v
  | S n => let! v := zput v bin (of_int 0) in zero_vals n v (bin + 1)
  end.
(** lines 586-591 *)
Definition a_reset (a : accum) : res accum :=
  let h := h_reset A (counts a) in
  let! v := zero_vals (Z.to_nat (num_bins h)) (val_bins a) 0 in Ok (mkAccum h v).
(** lines 568-580: val_bins has bins_in elements. *)
Definition a_new (bins_in : Z) (low high : A) (scalable growable : bool) : res accum :=
  let! h := h_new A bins_in low high scalable growable in
  a_reset (mkAccum h (repeat (of_int 0) (Z.to_nat bins_in))).

(** lines 603-608 *)
Fixpoint merge_up2 (fuel : nat) (b : list Z) (v : list A) (i j : Z) : res (list Z * list A * Z) :=
  if 0 <=? j then
    match fuel with
    | O => Fuel
    | S f =>
        let! x := zget b j in let! y := zget b (j + 1) in
        let! b := zput b i (u64 (x + y)) in
        let! p := zget v j in let! q := zget v (j + 1) in
        let! v := zput v i (nadd p q) in
        merge_up2 f b v (i - 1) (j - 2)
    end
  else Ok (b, v, i).
(** lines 609-613 *)
Fixpoint zero_down2 (fuel : nat) (b : list Z) (v : list A) (i : Z) : res (list Z * list A) :=
  if 0 <=? i then
    match fuel with
    | O => Fuel
    | S f => let! b := zput b i 0 in let! v := zput v i (of_int 0) in zero_down2 f b v (i - 1)
    end
  else Ok (b, v).
(** lines 619-622 *)
Fixpoint merge_down2 (fuel : nat) (half : Z) (b : list Z) (v : list A) (i j : Z) : res (list Z * list A * Z) :=
  if i <? half then
    match fuel with
    | O => Fuel
    | S f =>
        let! x := zget b j in let! y := zget b (j + 1) in
        let! b := zput b i (u64 (x + y)) in
        let! p := zget v j in let! q := zget v (j + 1) in
        let! v := zput v i (nadd p q) in
        merge_down2 f half b v (i + 1) (j + 2)
    end
  else Ok (b, v, i).
(** lines 623-627 *)
Fixpoint zero_up2 (fuel : nat) (n : Z) (b : list Z) (v : list A) (i : Z) : res (list Z * list A) :=
  if i <? n then
    match fuel with
    | O => Fuel
    | S f => let! b := zput b i 0 in let! v := zput v i (of_int 0) in zero_up2 f n b v (i + 1)
    end
  else Ok (b, v).

(** one turn of the loop at lines 600-615 *)
Definition a_low_once (a : accum) : res accum :=
  let h := counts a in
  let low' := nsub (bin_low h) (nsub (bin_high h) (bin_low h)) in
  let! (b, v, i) := merge_up2 (length (bins h)) (bins h) (val_bins a) (s32 (num_bins h - 1)) (s32 (num_bins h - 2)) in
  let! (b, v) := zero_down2 (length (bins h)) b v i in
  Ok (mkAccum (mkHist (base h) (num_bins h) (nadd (bin_width h) (bin_width h)) low' (bin_high h) b (is_scalable h) (is_growable h)) v).
(** one turn of the loop at lines 616-629 *)
Definition a_high_once (a : accum) : res accum :=
  let h := counts a in
  let high' := nadd (bin_high h) (nsub (bin_high h) (bin_low h)) in
  let! (b, v, i) := merge_down2 (length (bins h)) (num_bins h / 2) (bins h) (val_bins a) 0 0 in
  let! (b, v) := zero_up2 (length (bins h)) (num_bins h) b v i in
  Ok (mkAccum (mkHist (base h) (num_bins h) (nadd (bin_width h) (bin_width h)) (bin_low h) high' b (is_scalable h) (is_growable h)) v).
Fixpoint a_low (fuel : nat) (a : accum) (value : A) : res accum :=
  if nlt value (bin_low (counts a)) then
    match fuel with
    | O => Fuel
    | S f => let! a' := a_low_once a in a_low f a' value
    end
  else Ok a.
Fixpoint a_high (fuel : nat) (a : accum) (value : A) : res accum :=
  if nle (bin_high (counts a)) value then
    match fuel with
    | O => Fuel
    | S f => let! a' := a_high_once a in a_high f a' value
    end
  else Ok a.
Definition a_scale (fuel : nat) (a : accum) (value : A) : res accum :=
  if is_scalable (counts a) && (nlt value (bin_low (counts a)) || nle (bin_high (counts a)) value) then
    let! a1 := a_low fuel a value in a_high fuel a1 value
  else Ok a.

(** lines 593-634: is_growable is not looked at. *)
Definition a_add (fuel : nat) (a : accum) (index data : A) : res accum :=
  let a := mkAccum (with_base A (counts a) (st_add A (base (counts a)) data)) (val_bins a) in
  let! a := a_scale fuel a index in
  let! bin := sampleBin A (counts a) index in
  let! c := zget (bins (counts a)) bin in
  let! b := zput (bins (counts a)) bin (u64 (c + 1)) in
  let! s := zget (val_bins a) bin in
  let! v := zput (val_bins a) bin (nadd s data) in
  Ok (mkAccum (with_bins A (counts a) b) v).
Fixpoint a_adds (fuel : nat) (a : accum) (l : list (A * A)) : res accum :=
  match l with
  | [] => Ok a
  | (i, d) :: r => let! a := a_add fuel a i d in a_adds fuel a r
  end.
(** lines 641-645 *)
Definition a_value (a : accum) (index : Z) : res A :=
  let! _ := invariant (index <=? num_bins (counts a)) in zget (val_bins a) index.
End M.
