(** Model of StatsHistogramUniform and StatsHistogramGroup (src/StatsHistogram.cpp:42-228
    and 811-924), over an abstract arithmetic. num_rescales/num_grows, printing and the
    failure of [new] are not modelled. *)
From Coq Require Import List ZArith Bool.
From Verif Require Import Common Arith Stats_Model.
Import ListNotations.
Local Open Scope Z_scope.

Definition u32 (x : Z) : Z := x mod 2 ^ 32.
(** conversion unsigned -> int *)
Definition s32 (x : Z) : Z := if u32 x <? 2 ^ 31 then u32 x else u32 x - 2 ^ 32.
Definition u64 (x : Z) : Z := x mod 2 ^ 64.

(** An array access with an index of an integer type: out of range is undefined. *)
Definition zget {X} (l : list X) (i : Z) : res X := if 0 <=? i then get l (Z.to_nat i) else UB.
Definition zput {X} (l : list X) (i : Z) (x : X) : res (list X) := if 0 <=? i then put l (Z.to_nat i) x else UB.

(** include/Lintel/StatsHistogram.hpp:108-116 *)
Record hist (A : arith) : Type := mkHist {
  base : stats A;
  num_bins : Z;
  bin_width : A;
  bin_low : A;
  bin_high : A;
  bins : list Z;
  is_scalable : bool;
  is_growable : bool
}.
Arguments mkHist {A}.
Arguments base {A}.
Arguments num_bins {A}.
Arguments bin_width {A}.
Arguments bin_low {A}.
Arguments bin_high {A}.
Arguments bins {A}.
Arguments is_scalable {A}.
Arguments is_growable {A}.

Section M.
Variable A : arith.
Local Notation hist := (hist A).

(** src/StatsHistogram.cpp:74-80 *)
Definition h_reset (h : hist) : hist :=
  mkHist (st_reset A (base h)) (num_bins h) (ndiv (nsub (bin_high h) (bin_low h)) (of_int (num_bins h)))
    (bin_low h) (bin_high h) (repeat 0 (length (bins h))) (is_scalable h) (is_growable h).

(** src/StatsHistogram.cpp:42-65. bins_in is an unsigned, so bins_in + 1 wraps. *)
Definition h_new (bins_in : Z) (low high : A) (scalable growable : bool) : res hist :=
  let num := 2 * (u32 (bins_in + 1) / 2) in
  let! _ := invariant (nle low high) in
  let! _ := invariant (0 <? bins_in) in
  let! _ := invariant (negb (growable && scalable)) in
  Ok (h_reset (mkHist (st_new A) num (of_int 0) low high (repeat 0 (Z.to_nat num)) scalable growable)).

(** src/StatsHistogram.cpp:84-88. The check is index <= num_bins. *)
Definition h_index (h : hist) (index : Z) : res Z :=
  let! _ := invariant (index <=? num_bins h) in zget (bins h) index.

(** src/StatsHistogram.cpp:90-100 *)
Definition sampleBin (h : hist) (value : A) : res Z :=
  if nle value (bin_low h) then Ok 0
  else if nle (bin_high h) value then Ok (u32 (num_bins h - 1))
  else floor_unsigned 32 (ndiv (nsub value (bin_low h)) (bin_width h)).

(** std::numeric_limits<double>::max()/2 *)
Definition half_max : Z := (2 ^ 53 - 1) * 2 ^ 970.

(** src/StatsHistogram.cpp:113-116 and 131-134: C++ parses 2 * (f + 1) / 2 as (2 * (f + 1)) / 2,
    in unsigned arithmetic. *)
Definition grown_bins (n f : Z) : Z :=
  let new_num := u32 (2 * u32 (f + 1)) / 2 in
  if new_num <? u32 (n * 2) then u32 (n * 2) else new_num.

(** src/StatsHistogram.cpp:105-147. memcpy of more than the new array holds is undefined. *)
Definition grow (h : hist) (value : A) : res hist :=
  if is_growable h && (nlt value (bin_low h) || nle (bin_high h) value) then
    if nle (bin_high h) value then
      let! _ := invariant (nlt value (of_int half_max)) in
      let! f := floor_unsigned 32 (ndiv (nsub value (bin_low h)) (bin_width h)) in
      let n := grown_bins (num_bins h) f in
      if num_bins h <=? n then
        Ok (mkHist (base h) n (bin_width h) (bin_low h) (nadd (bin_low h) (nmul (of_int n) (bin_width h)))
              (bins h ++ repeat 0 (Z.to_nat (n - num_bins h))) (is_scalable h) (is_growable h))
      else UB
    else
      let! _ := invariant (nlt (nopp value) (of_int half_max)) in
      let! f := floor_unsigned 32 (ndiv (nsub (bin_high h) value) (bin_width h)) in
      let n := grown_bins (num_bins h) f in
      if num_bins h <=? n then
        Ok (mkHist (base h) n (bin_width h) (nsub (bin_high h) (nmul (of_int n) (bin_width h))) (bin_high h)
              (repeat 0 (Z.to_nat (n - num_bins h)) ++ bins h) (is_scalable h) (is_growable h))
      else UB
  else Ok h.

(** src/StatsHistogram.cpp:155-160: merge pairs into the upper half; [fuel] bounds the loop. *)
Fixpoint merge_up (fuel : nat) (b : list Z) (i j : Z) : res (list Z * Z) :=
  if 0 <=? j then
    match fuel with
    | O => Fuel
    | S f =>
        let! x := zget b j in let! y := zget b (j + 1) in
        let! b' := zput b i (u64 (x + y)) in
        merge_up f b' (i - 1) (j - 2)
    end
  else Ok (b, i).
(** line 161: while (i>=0) bins[i--] = 0 *)
Fixpoint zero_down (fuel : nat) (b : list Z) (i : Z) : res (list Z) :=
  if 0 <=? i then
    match fuel with
    | O => Fuel
    | S f => let! b' := zput b i 0 in zero_down f b' (i - 1)
    end
  else Ok b.
(** src/StatsHistogram.cpp:167-169: merge pairs into the lower half *)
Fixpoint merge_down (fuel : nat) (half : Z) (b : list Z) (i j : Z) : res (list Z * Z) :=
  if i <? half then
    match fuel with
    | O => Fuel
    | S f =>
        let! x := zget b j in let! y := zget b (j + 1) in
        let! b' := zput b i (u64 (x + y)) in
        merge_down f half b' (i + 1) (j + 2)
    end
  else Ok (b, i).
(** line 170 *)
Fixpoint zero_up (fuel : nat) (n : Z) (b : list Z) (i : Z) : res (list Z) :=
  if i <? n then
    match fuel with
    | O => Fuel
    | S f => let! b' := zput b i 0 in zero_up f n b' (i + 1)
    end
  else Ok b.

(** one turn of the loop at src/StatsHistogram.cpp:152-163 *)
Definition scale_low_once (h : hist) : res hist :=
  let low' := nsub (bin_low h) (nsub (bin_high h) (bin_low h)) in
  let! (b, i) := merge_up (length (bins h)) (bins h) (s32 (num_bins h - 1)) (s32 (num_bins h - 2)) in
  let! b' := zero_down (length (bins h)) b i in
  Ok (mkHist (base h) (num_bins h) (nadd (bin_width h) (bin_width h)) low' (bin_high h) b' (is_scalable h) (is_growable h)).
(** one turn of the loop at src/StatsHistogram.cpp:164-172 *)
Definition scale_high_once (h : hist) : res hist :=
  let high' := nadd (bin_high h) (nsub (bin_high h) (bin_low h)) in
  let! (b, i) := merge_down (length (bins h)) (num_bins h / 2) (bins h) 0 0 in
  let! b' := zero_up (length (bins h)) (num_bins h) b i in
  Ok (mkHist (base h) (num_bins h) (nadd (bin_width h) (bin_width h)) (bin_low h) high' b' (is_scalable h) (is_growable h)).

(** The two loops themselves may not terminate (they do not for value = infinity, or when
    low = high): [fuel] bounds the number of turns. *)
Fixpoint scale_low (fuel : nat) (h : hist) (value : A) : res hist :=
  if nlt value (bin_low h) then
    match fuel with
    | O => Fuel
    | S f => let! h' := scale_low_once h in scale_low f h' value
    end
  else Ok h.
Fixpoint scale_high (fuel : nat) (h : hist) (value : A) : res hist :=
  if nle (bin_high h) value then
    match fuel with
    | O => Fuel
    | S f => let! h' := scale_high_once h in scale_high f h' value
    end
  else Ok h.
(** src/StatsHistogram.cpp:149-173 *)
Definition scale (fuel : nat) (h : hist) (value : A) : res hist :=
  if is_scalable h && (nlt value (bin_low h) || nle (bin_high h) value) then
    let! h1 := scale_low fuel h value in scale_high fuel h1 value
  else Ok h.

Definition with_base (h : hist) (s : stats A) : hist :=
  mkHist s (num_bins h) (bin_width h) (bin_low h) (bin_high h) (bins h) (is_scalable h) (is_growable h).
Definition with_bins (h : hist) (b : list Z) : hist :=
  mkHist (base h) (num_bins h) (bin_width h) (bin_low h) (bin_high h) b (is_scalable h) (is_growable h).

(** src/StatsHistogram.cpp:102-177 *)
Definition h_add (fuel : nat) (h : hist) (value : A) : res hist :=
  let h0 := with_base h (st_add A (base h) value) in
  let! h1 := grow h0 value in
  let! h2 := scale fuel h1 value in
  let! bin := sampleBin h2 value in
  let! c := zget (bins h2) bin in
  let! b := zput (bins h2) bin (u64 (c + 1)) in
  Ok (with_bins h2 b).

(** src/StatsHistogram.cpp:179-183 *)
Definition h_add2 (fuel : nat) (h : hist) (index data : A) : res hist :=
  let! _ := invariant (neq index data) in h_add fuel h index.

Fixpoint h_adds (fuel : nat) (h : hist) (l : list A) : res hist :=
  match l with
  | [] => Ok h
  | x :: r => let! h' := h_add fuel h x in h_adds fuel h' r
  end.

(** include/Lintel/StatsHistogram.hpp:139,142 *)
Definition binlow (h : hist) (i : Z) : A := nadd (bin_low h) (nmul (of_int i) (bin_width h)).
Definition binhigh (h : hist) (i : Z) : A := nadd (bin_low h) (nmul (of_int (u32 (i + 1))) (bin_width h)).

(** StatsHistogramGroup with uniform sub-histograms:
    include/Lintel/StatsHistogram.hpp:340-343, src/StatsHistogram.cpp:811-838. *)
Record group : Type := mkGroup { g_base : stats A; histograms : list hist; ranges : list A; g_low : stats A; g_high : stats A }.

Fixpoint make_hists (buckets : Z) (r : list A) : res (list hist) :=
  match r with
  | a :: ((b :: _) as r') =>
      let! h := h_new (u32 buckets) a b false false in
      let! t := make_hists buckets r' in Ok (h :: t)
  | _ => Ok []
  end.
Definition g_new (buckets : Z) (r : list A) : res group :=
  let! _ := invariant (2 <=? Z.of_nat (length r)) in
  let! hs := make_hists buckets r in
  Ok (mkGroup (st_new A) hs r (st_new A) (st_new A)).

(** src/StatsHistogram.cpp:896-901: index of the sub-histogram of the first range end above
    the value, counting from [i]; None when there is none. *)
Fixpoint find_range (value : A) (ends : list A) (i : nat) : option nat :=
  match ends with
  | [] => None
  | e :: r => if nlt value e then Some i else find_range value r (S i)
  end.
(** src/StatsHistogram.cpp:890-904 *)
Definition g_add (fuel : nat) (g : group) (value : A) : res group :=
  let b := st_add A (g_base g) value in
  let! r0 := get (ranges g) 0 in
  if nlt value r0 then Ok (mkGroup b (histograms g) (ranges g) (st_add A (g_low g) value) (g_high g))
  else match find_range value (tl (ranges g)) 0 with
       | Some k =>
           let! h := get (histograms g) k in
           let! h' := h_add fuel h value in
           let! hs := put (histograms g) k h' in
           Ok (mkGroup b hs (ranges g) (g_low g) (g_high g))
       | None => Ok (mkGroup b (histograms g) (ranges g) (g_low g) (st_add A (g_high g) value))
       end.
Fixpoint g_adds (fuel : nat) (g : group) (l : list A) : res group :=
  match l with
  | [] => Ok g
  | x :: r => let! g' := g_add fuel g x in g_adds fuel g' r
  end.
End M.
Arguments g_base {A}.
Arguments histograms {A}.
Arguments ranges {A}.
Arguments g_low {A}.
Arguments g_high {A}.
