(** Model of StatsSeries (include/Lintel/StatsSeries.hpp, src/StatsSeries.cpp) over
    an abstract arithmetic. iscorrelated95 is in Corr_Model.v; debugString is not
    modelled. *)
From Coq Require Import List Arith ZArith QArith.
From Verif Require Import Common Arith Stats_Model.
Import ListNotations.
Local Open Scope Z_scope.

(** StatsSeries.hpp:24-28; the three arrays have max_lag+1 cells. *)
Record series (A : arith) : Type := mkSeries {
  se_stats : stats A;
  max_lag : nat;
  se_samples : list A;
  product : list A;
  firstsamples : list A;
  sampleno : Z }.
Arguments mkSeries {A}.
Arguments se_stats {A}.
Arguments max_lag {A}.
Arguments se_samples {A}.
Arguments product {A}.
Arguments firstsamples {A}.
Arguments sampleno {A}.

Section M.
Variable A : arith.

(** reset, StatsSeries.cpp:112-122 *)
Definition se_reset (s : series A) : series A :=
  let z := repeat (of_int 0) (max_lag s + 1) in
  mkSeries (st_reset A (se_stats s)) (max_lag s) z z z 0.

(** Constructor, StatsSeries.cpp:49-63; the allocations succeed. *)
Definition se_new (ml : nat) : res (series A) :=
  let! _ := invariant (0 <? ml)%nat in
  Ok (se_reset (mkSeries (st_new A) ml [] [] [] 0)).

(** for (i = max_lag; i > 0; i--) samples[i] = samples[i-1], StatsSeries.cpp:83-85 *)
Fixpoint shift (is_ : list nat) (v : list A) : res (list A) :=
  match is_ with
  | [] => Ok v
  | i :: r => let! x := get v (i - 1) in let! v := put v i x in shift r v
  end.
(** product[lag] += value*samples[lag], StatsSeries.cpp:91-93 and 98-100 *)
Fixpoint add_products (lags : list nat) (value : A) (smp p : list A) : res (list A) :=
  match lags with
  | [] => Ok p
  | lag :: r =>
    let! x := get smp lag in
    let! y := get p lag in
    let! p := put p lag (nadd y (nmul value x)) in
    add_products r value smp p
  end.
(** firstsamples[lag] += value, StatsSeries.cpp:94-96 *)
Fixpoint add_first (lags : list nat) (value : A) (f : list A) : res (list A) :=
  match lags with
  | [] => Ok f
  | lag :: r =>
    let! y := get f lag in
    let! f := put f lag (nadd y value) in
    add_first r value f
  end.

(** add(value), StatsSeries.cpp:75-105; sampleno is an unsigned int. *)
Definition se_add (s : series A) (value : A) : res (series A) :=
  let st := st_add A (se_stats s) value in
  let! smp := shift (rev (seq 1 (max_lag s))) (se_samples s) in
  let! smp := put smp 0 value in
  let n := Z.to_nat (sampleno s) in
  let! (p, f) :=
    (if sampleno s <? Z.of_nat (max_lag s) then
       let! p := add_products (seq 0 (n + 1)) value smp (product s) in
       let! f := add_first (seq (n + 1) (max_lag s - n)) value (firstsamples s) in
       Ok (p, f)
     else
       let! p := add_products (seq 0 (max_lag s + 1)) value smp (product s) in
       Ok (p, firstsamples s)) in
  Ok (mkSeries st (max_lag s) smp p f ((sampleno s + 1) mod 2 ^ 32)).

(** add(Stats), StatsSeries.cpp:107-110: FATAL_ERROR *)
Definition se_merge (s : series A) (o : stats A) : res (series A) := Abort.

(** The loop that sums the last samples, StatsSeries.cpp:131-133 *)
Fixpoint sum_samples (is_ : list nat) (smp : list A) (acc : A) : res A :=
  match is_ with
  | [] => Ok acc
  | i :: r => let! x := get smp i in sum_samples r smp (nadd acc x)
  end.

(** autocovariance(lag), StatsSeries.cpp:124-136; [sampleno - lag - 1] is computed
    in unsigned int and then converted. *)
Definition autocovariance (s : series A) (lag : nat) : res A :=
  let! _ := invariant (lag <=? max_lag s)%nat in
  let! lastsamples := sum_samples (seq 0 lag) (se_samples s) (of_int 0) in
  let! p := get (product s) lag in
  let! f := get (firstsamples s) lag in
  let m := st_mean A (se_stats s) in
  let sm := sum (se_stats s) in
  let n := of_int (sampleno s) in
  Ok (nadd (ndiv (nadd (nsub p (nmul m (nsub (nsub (nadd sm sm) lastsamples) f)))
                       (nmul (nmul m m) (of_int ((sampleno s - Z.of_nat lag - 1) mod 2 ^ 32))))
                 (nmul (of_int 1) n))
           (ndiv (nmul m m) n)).

(** autocorrelation(lag), StatsSeries.hpp:41-43 *)
Definition autocorrelation (s : series A) (lag : nat) : res A :=
  let! x := autocovariance s lag in
  let! y := autocovariance s 0 in
  Ok (ndiv x y).

(** A history of samples and resets. *)
Inductive seop : Type := SeAdd (v : A) | SeReset.
Fixpoint se_run (s : series A) (l : list seop) : res (series A) :=
  match l with
  | [] => Ok s
  | SeAdd v :: r => let! s := se_add s v in se_run s r
  | SeReset :: r => se_run (se_reset s) r
  end.
End M.
Arguments SeAdd {A}.
Arguments SeReset {A}.
