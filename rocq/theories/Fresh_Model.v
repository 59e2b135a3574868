(** Model of reset() and another_new() as virtual functions of the statistics classes
    (include/Lintel/Stats.hpp:52-103 and the classes derived from Stats). The objects are
    those of the models of the single classes. StatsHistogramGroup has uniform
    sub-histograms; StatsQuantile takes its samples as in Quantile_Model. *)
From Coq Require Import List ZArith QArith Bool.
From Verif Require Import Common Arith Stats_Model Histogram_Model HistAccum_Model LogHist_Model Series_Model Sequence_Model EMA_Model Group_Model Quantile_Model.
Import ListNotations.
Local Open Scope Z_scope.

(** The classes: Stats.hpp:52, StatsHistogram.hpp:106, 274, 165, 231, 311, StatsSeries.hpp:23,
    StatsSequence.hpp:20, StatsEMA.hpp:32, StatsSeriesGroup.hpp:23, StatsQuantile.hpp:32. *)
Inductive cls : Type :=
  CStats | CUniform | CUniformAccum | CLog | CLogAccum | CSeries | CSequence | CEMA | CSeriesGroup | CHistogramGroup | CQuantile.

Inductive obj (A : arith) : Type :=
| OStats (s : stats A)
| OUniform (h : hist A)
| OUniformAccum (a : accum A)
| OLog (h : lhist A)
| OLogAccum (a : laccum A)
| OSeries (s : series A)
| OSequence (s : seqstat A)
| OEMA (s : ema A)
| OSeriesGroup (g : Group_Model.group A)
| OHistogramGroup (g : Histogram_Model.group A)
| OQuantile (q : quantile).
Arguments OStats {A}.
Arguments OUniform {A}.
Arguments OUniformAccum {A}.
Arguments OLog {A}.
Arguments OLogAccum {A}.
Arguments OSeries {A}.
Arguments OSequence {A}.
Arguments OEMA {A}.
Arguments OSeriesGroup {A}.
Arguments OHistogramGroup {A}.
Arguments OQuantile {A}.

(** Constructor calls *)
Inductive build (A : arith) : Type :=
| BStats
| BUniform (bins_in : Z) (low high : A) (scalable growable : bool)
| BUniformAccum (bins_in : Z) (low high : A) (scalable growable : bool)
| BLog (bins_in : Z) (smallest high : A) (scalable : bool)
| BLogAccum (bins_in : Z) (smallest high : A)
| BSeries (maxlag : nat)
| BSequence (max_retain : nat) (m : mode)
| BEMA (rates : list A)
| BSeriesGroup (interval : A)
| BHistogramGroup (buckets : Z) (ranges : list A)
| BQuantile (eps : Q) (nbound : Z).
Arguments BStats {A}.
Arguments BUniform {A}.
Arguments BUniformAccum {A}.
Arguments BLog {A}.
Arguments BLogAccum {A}.
Arguments BSeries {A}.
Arguments BSequence {A}.
Arguments BEMA {A}.
Arguments BSeriesGroup {A}.
Arguments BHistogramGroup {A}.
Arguments BQuantile {A}.

Section M.
Variable A : arith.
Variable log_ exp_ : A -> A.
Local Notation obj := (obj A).

(** the dynamic type of an object, as typeid or dynamic_cast sees it *)
Definition class_of (o : obj) : cls :=
  match o with
  | OStats _ => CStats | OUniform _ => CUniform | OUniformAccum _ => CUniformAccum | OLog _ => CLog | OLogAccum _ => CLogAccum
  | OSeries _ => CSeries | OSequence _ => CSequence | OEMA _ => CEMA | OSeriesGroup _ => CSeriesGroup
  | OHistogramGroup _ => CHistogramGroup | OQuantile _ => CQuantile
  end.

(** [new C(...)]: the constructors cited in the models of the classes *)
Definition o_new (b : build A) : res obj :=
  match b with
  | BStats => Ok (OStats (st_new A))
  | BUniform n l h s g => let! x := h_new A n l h s g in Ok (OUniform x)
  | BUniformAccum n l h s g => let! x := a_new A n l h s g in Ok (OUniformAccum x)
  | BLog n l h s => let! x := l_new A log_ n l h s in Ok (OLog x)
  | BLogAccum n l h => let! x := la_new A log_ n l h in Ok (OLogAccum x)
  | BSeries ml => let! x := se_new A ml in Ok (OSeries x)
  | BSequence mr m => let! x := sq_new A mr m in Ok (OSequence x)
  | BEMA r => let! x := em_new A r in Ok (OEMA x)
  | BSeriesGroup i => let! x := Group_Model.g_new A i in Ok (OSeriesGroup x)
  | BHistogramGroup n r => let! x := Histogram_Model.g_new A n r in Ok (OHistogramGroup x)
  | BQuantile e n => let! x := q_new e n false in Ok (OQuantile x)
  end.

(** reset(): Stats.cpp:79-86, StatsHistogram.cpp:74-80, 586-591, 385-391, 729-733,
    StatsSeries.cpp:112-122, StatsSequence.cpp:31-39, StatsEMA.cpp:32-36 (FATAL_ERROR),
    StatsSeriesGroup.cpp:72-80, StatsHistogram.cpp:881-888, StatsQuantile.cpp:203-207. *)
Definition o_reset (o : obj) : res obj :=
  match o with
  | OStats s => Ok (OStats (st_reset A s))
  | OUniform h => Ok (OUniform (h_reset A h))
  | OUniformAccum a => let! a := a_reset A a in Ok (OUniformAccum a)
  | OLog h => Ok (OLog (l_reset A h))
  | OLogAccum a => Ok (OLogAccum (la_reset A a))
  | OSeries s => Ok (OSeries (se_reset A s))
  | OSequence s => Ok (OSequence (sq_reset A s))
  | OEMA s => let! s := em_reset A s in Ok (OEMA s)
  | OSeriesGroup g => Ok (OSeriesGroup (Group_Model.g_reset A g))
  | OHistogramGroup g =>
      Ok (OHistogramGroup (Histogram_Model.mkGroup A (st_reset A (Histogram_Model.g_base g)) (map (h_reset A) (histograms g)) (ranges g)
            (st_reset A (Histogram_Model.g_low g)) (st_reset A (Histogram_Model.g_high g))))
  | OQuantile q => Ok (OQuantile (q_reset q))
  end.

(** another_new(): Stats.cpp:235-237, StatsHistogram.cpp:330-336, 700-706, 552-557, 805-809,
    StatsSeries.cpp:184-188. The other classes inherit that of Stats. *)
Definition another_new (o : obj) : res obj :=
  match o with
  | OUniform h => o_new (BUniform (num_bins h) (bin_low h) (bin_high h) (is_scalable h) (is_growable h))
  | OUniformAccum a => let h := counts a in o_new (BUniformAccum (num_bins h) (bin_low h) (bin_high h) (is_scalable h) (is_growable h))
  | OLog h => o_new (BLog (l_num h) (l_small h) (l_high h) (l_scalable h))
  | OLogAccum a => let h := la_counts a in o_new (BLogAccum (l_num h) (l_small h) (l_high h))
  | OSeries s => o_new (BSeries (max_lag s))
  | OStats _ | OSequence _ | OEMA _ | OSeriesGroup _ | OHistogramGroup _ | OQuantile _ => Ok (OStats (st_new A))
  end.

(** add(value). StatsQuantile is given its samples in Quantile_Model only. [fuel] is for the
    rescaling loops. *)
Definition o_add (fuel : nat) (o : obj) (x : A) : res obj :=
  match o with
  | OStats s => Ok (OStats (st_add A s x))
  | OUniform h => let! h := h_add A fuel h x in Ok (OUniform h)
  | OUniformAccum a => let! a := a_add A fuel a x x in Ok (OUniformAccum a)
  | OLog h => let! h := l_add A log_ exp_ fuel h x in Ok (OLog h)
  | OLogAccum a => let! a := la_add A log_ a x x in Ok (OLogAccum a)
  | OSeries s => let! s := se_add A s x in Ok (OSeries s)
  | OSequence s => let! s := sq_add A s x in Ok (OSequence s)
  | OEMA s => let! s := em_add A s x in Ok (OEMA s)
  | OSeriesGroup g => let! g := Group_Model.g_add A g x in Ok (OSeriesGroup g)
  | OHistogramGroup g => let! g := Histogram_Model.g_add A fuel g x in Ok (OHistogramGroup g)
  | OQuantile q => Abort
  end.
(** add(index, data) of the histograms (StatsHistogram.cpp:179-183, 593-634, 454-458, 749-755)
    and addTimeSeq(value, time) of the others (Stats.cpp:116-118, which ignores the time, and
    StatsSeriesGroup.cpp:48-70). The two-argument add of StatsHistogramGroup is not modelled. *)
Definition o_add2 (fuel : nat) (o : obj) (x y : A) : res obj :=
  match o with
  | OUniform h => let! h := h_add2 A fuel h x y in Ok (OUniform h)
  | OUniformAccum a => let! a := a_add A fuel a x y in Ok (OUniformAccum a)
  | OLog h => let! _ := invariant (neq x y) in let! h := l_add A log_ exp_ fuel h x in Ok (OLog h)
  | OLogAccum a => let! a := la_add A log_ a x y in Ok (OLogAccum a)
  | OSeriesGroup g => let! g := g_addTimeSeq A fuel g x y in Ok (OSeriesGroup g)
  | OHistogramGroup g => Abort
  | _ => o_add fuel o x
  end.

(** A history of one object *)
Inductive fop : Type := FAdd (x : A) | FAdd2 (x y : A) | FReset.
Definition o_step (fuel : nat) (o : obj) (x : fop) : res obj :=
  match x with FAdd x => o_add fuel o x | FAdd2 x y => o_add2 fuel o x y | FReset => o_reset o end.
Fixpoint o_run (fuel : nat) (o : obj) (l : list fop) : res obj :=
  match l with
  | [] => Ok o
  | x :: r => let! o := o_step fuel o x in o_run fuel o r
  end.
End M.
Arguments FAdd {A}.
Arguments FAdd2 {A}.
Arguments FReset {A}.
Arguments class_of {A}.
