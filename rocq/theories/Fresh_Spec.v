(** Vocabulary of C92. *)
From Coq Require Import ZArith QArith.
From Verif Require Import Common Arith Stats_Model Histogram_Model HistAccum_Model LogHist_Model Fresh_Model.
Local Open Scope Z_scope.

(** Constructor calls for a statistic whose shape never changes. *)
Definition fixed_build {A : arith} (b : build A) : Prop :=
  match b with
  | BStats | BSeries _ | BSequence _ _ => True
  | BUniform n _ _ s g | BUniformAccum n _ _ s g => 0 < n < 2 ^ 31 /\ s = false /\ g = false
  | BLog n _ _ s => 0 < n < 2 ^ 31 /\ s = false
  | BLogAccum n _ _ | BHistogramGroup n _ => 0 < n < 2 ^ 31
  | BEMA _ | BSeriesGroup _ | BQuantile _ _ => False
  end.
(** The classes that define another_new themselves, and Stats. *)
Definition own_another_new (c : cls) : Prop :=
  match c with CStats | CUniform | CUniformAccum | CLog | CLogAccum | CSeries => True | _ => False end.

(** What the accessors of a histogram report about its shape: low(), high(), numBins(). *)
Definition shape_of {A : arith} (o : obj A) : option (A * A * Z) :=
  match o with
  | OUniform h => Some (bin_low h, bin_high h, num_bins h)
  | OUniformAccum a => Some (bin_low (counts a), bin_high (counts a), num_bins (counts a))
  | OLog h => Some (l_small h, l_high h, l_num h)
  | OLogAccum a => Some (l_small (la_counts a), l_high (la_counts a), l_num (la_counts a))
  | _ => None
  end.
(** the bin counts *)
Definition counts_of {A : arith} (o : obj A) : list Z :=
  match o with
  | OUniform h => bins h
  | OUniformAccum a => bins (counts a)
  | OLog h => l_bins h
  | OLogAccum a => l_bins (la_counts a)
  | _ => nil
  end.
(** the Stats part of a histogram *)
Definition base_of {A : arith} (o : obj A) : option (stats A) :=
  match o with
  | OStats s => Some s
  | OUniform h => Some (base h)
  | OUniformAccum a => Some (base (counts a))
  | OLog h => Some (l_base h)
  | OLogAccum a => Some (l_base (la_counts a))
  | _ => None
  end.
(** a history with numbers *)
Inductive qfop : Type := QAdd (x : Q) | QAdd2 (x y : Q) | QReset.
Definition to_fop (o : qfop) : fop exact :=
  match o with QAdd x => FAdd (Fin x : exact) | QAdd2 x y => FAdd2 (Fin x : exact) (Fin y : exact) | QReset => FReset end.
